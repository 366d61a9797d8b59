(** Property C78: perfect sensors give the exact trajectory. *)
From Coq Require Import Reals ZArith List Bool Arith Lia Lra.
From Verif Require Import Res Vec3 Mat MatInv Psd Spec LieGroup RobotState Inekf SpecFilter Imu Propagation SpecProp VelCorr LegCorr SpecCorr
  Estimator SpecEst EstEx SpecObs SpecTrack TrackEst TrackSteady TrackEx TrackLeg SnapEx.
Import ListNotations.
Local Open Scope R_scope.

(** C78: let T be the true trajectory. If InitState starts on it, the IMU samples describe it
    (with the estimator's own biases; constant rate and force between two samples) and every
    reading that RunOnce uses is correct for the true pose, then - whatever the noise settings,
    covariances, error convention, number of corrections and order of calls - every published
    estimate and the final one are exactly on T, the biases do not move, and the stored foot
    positions are exactly where the feet stand. *)
Theorem C78_perfect_sensors_exact_trajectory : forall f pre l post e1 e2 T t0 st', reachable f ((pre ++ [OInitState l]) ++ post) e2 ->
  est_run (build f) (pre ++ [OInitState l]) = Ok e1 -> e_enabled e1 = true -> ~ In OClear post ->
  stprop (e_state e1) = Some t0 -> pose_of (e_state e1) = T t0 ->
  imus_exact f (gbias (e_state e1)) (abias (e_state e1)) T t0 (imu_queue e1 ++ imus post) -> sensing f T e1 post no_feet st' ->
  on_truth T (e_state e2) /\ gbias (e_state e2) = gbias (e_state e1) /\ abias (e_state e2) = abias (e_state e1) /\ feet_of e2 st' /\
  Forall (on_truth T) (published is_filter_op e1 post).
Proof. exact thm_perfect. Qed.
Print Assumptions C78_perfect_sensors_exact_trajectory.
(** When the body velocity is constant and the feet in contact stand still it does not matter
    which reading is used when: it is enough that the readings delivered are correct. *)
Theorem C78_steady_motion : forall f pre l post e1 e2 T W t0, reachable f ((pre ++ [OInitState l]) ++ post) e2 ->
  est_run (build f) (pre ++ [OInitState l]) = Ok e1 -> e_enabled e1 = true -> ~ In OClear post ->
  stprop (e_state e1) = Some t0 -> pose_of (e_state e1) = T t0 ->
  imus_exact f (gbias (e_state e1)) (abias (e_state e1)) T t0 (imu_queue e1 ++ imus post) ->
  (forall i g r, nth_error (f_corrs f) i = Some g -> In r (queue_of e1 i ++ flat_map (delivered g i) post) -> always_right T W g r) ->
  on_truth T (e_state e2) /\ gbias (e_state e2) = gbias (e_state e1) /\ abias (e_state e2) = abias (e_state e1) /\
  (forall c id w, In (CLeg c) (e_corrs e2) -> ppos c (e_heap e2) (e_state e2) id = Some w -> w = W id) /\ Forall (on_truth T) (published is_filter_op e1 post).
Proof. exact thm_steady. Qed.
Print Assumptions C78_steady_motion.
(** Wheeled: a robot driving in a circle at speed 1, at any yaw rate, with IMU and velocity
    readings and consumer calls in any number and order: the estimate is on the circle for ever. *)
Theorem C78_drives_a_circle : forall w post, w <> 0 -> Forall (circle_op w) post -> ticks w 1 (imus post) ->
  exists e1 e2, est_run (build exF) (exPre ++ [OInitState []]) = Ok e1 /\ reachable exF ((exPre ++ [OInitState []]) ++ post) e2 /\
    Forall (on_truth (circle 1 w 1)) (published is_filter_op e1 post) /\ on_truth (circle 1 w 1) (e_state e2).
Proof. exact thm_circle. Qed.
Print Assumptions C78_drives_a_circle.
(** Legged: a robot standing still, lifting and putting down its feet in any pattern. *)
Theorem C78_stands_still : forall W post, Forall (stand_op W) post -> nondec 1 (map i_t (imus post)) ->
  exists e1 e2, est_run (build sxF) (standPre ++ [OInitState []]) = Ok e1 /\ reachable sxF ((standPre ++ [OInitState []]) ++ post) e2 /\
    Forall (on_truth still) (published is_filter_op e1 post) /\ on_truth still (e_state e2) /\
    (forall c id w, In (CLeg c) (e_corrs e2) -> ppos c (e_heap e2) (e_state e2) id = Some w -> w = W id).
Proof. exact thm_standing. Qed.
Print Assumptions C78_stands_still.
(** one radian along the circle *)
Example C78_example_circle : Forall (circle_op 1) circOps /\ ticks 1 1 (imus circOps) /\ exists e2, reachable exF ((exPre ++ [OInitState []]) ++ circOps) e2 /\
  stprop (e_state e2) = Some 2 /\ pose_of (e_state e2) = circle 1 1 1 2.
Proof. destruct circ_ops as [A B]. split; [exact A|]. split; [exact B|exact circle_example]. Qed.
(** two feet touch down, one of them lifts again *)
Example C78_example_legs : exists e2, let post := [OLeg 0 (sxL true true); ORunOnce []; OLeg 0 (sxL true false); ORunOnce []] in
  Forall (stand_op (fun _ => mkV 1 2 3)) post /\ nondec 1 (map i_t (imus post)) /\ reachable sxF ((standPre ++ [OInitState []]) ++ post) e2 /\
  on_truth still (e_state e2) /\ exists c, In (CLeg c) (e_corrs e2) /\ forall id, ppos c (e_heap e2) (e_state e2) id = if Nat.eqb id 0 then Some (mkV 1 2 3) else None.
Proof. exact standing_example. Qed.
