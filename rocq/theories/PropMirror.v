(** Property C88: the world seen in a mirror. *)
From Coq Require Import Reals ZArith List Bool Lia Lra.
From Verif Require Import Res Vec3 Mat LieGroup Spec RobotState Imu Propagation VelCorr LegCorr Estimator SpecEst SpecConv EstEx ClearEx ObsThms SnapEx SpecSnap SpecMirror MirrorEst.
Import ListNotations.
Local Open Scope R_scope.

(** The mirrors of the statement below: a vertical reflection M of space (determinant -1, up is
    up) acts on vectors as M v, on an orientation as M R M and on an angular velocity so that its
    cross product matrix becomes M [w]x M; readings and settings mirrored twice are the original. *)
Theorem C88_mirror_is_a_reflection : forall p, exists M, mtr M = M /\ M *m M = mid /\ det3 M = -1 /\ M *v mkV 0 0 1 = mkV 0 0 1 /\
  (forall v, pol p v = M *v v) /\
  (forall q, toRotationMatrix (qflip p q) = M *m toRotationMatrix q *m M) /\
  (forall w, skew (axi p w) = M *m skew w *m M) /\
  (forall o, mir_op p (mir_op p o) = o) /\ (forall f, mir_config p (mir_config p f) = f).
Proof. exact thm_reflection. Qed.
Print Assumptions C88_mirror_is_a_reflection.
(** C88: a robot and its mirror image, in a mirror exchanging left and right or front and back:
    velocities, accelerations, offsets and feet change the sign of one coordinate, angular
    velocities that of the two others, rotations and mountings accordingly.  The second
    estimator is initialised, corrected and read in the same way, fails when and how the first
    does, publishes at every step exactly the mirror image of the first one's estimate,
    covariance included, tracks the same legs and logs the mirror image of its lines. *)
Theorem C88_mirror_image : forall p f os, config_ok f -> imu_stream (imus os) -> protocol (build f) os ->
  let f' := mir_config p f in let os' := map (mir_op p) os in
  config_ok f' /\ imu_stream (imus os') /\ protocol (build f') os' /\
  published any_op (build f') os' = map (mirrored p) (published any_op (build f) os) /\
  match est_run (build f) os with
  | Ok a => exists b, est_run (build f') os' = Ok b /\ mirrored_output p a b
  | Fail x => est_run (build f') os' = Fail x
  end.
Proof. exact thm_mirror. Qed.
Print Assumptions C88_mirror_image.
(** In particular a robot whose settings and readings are their own mirror image - driving
    straight ahead, say - is estimated on the mirror: no velocity, position or foot off it, no
    turn out of it, and errors along and across it exactly uncorrelated, for ever. *)
Theorem C88_symmetric_robot : forall p f os, config_ok f -> imu_stream (imus os) -> protocol (build f) os -> mir_config p f = f -> map (mir_op p) os = os ->
  Forall (on_mirror p) (published any_op (build f) os) /\
  forall a, est_run (build f) os = Ok a -> Forall (on_mirror p) (e_out a ++ e_logq a) /\ (e_enabled a = true -> on_mirror p (e_state a)).
Proof. exact thm_symmetric. Qed.
Print Assumptions C88_symmetric_robot.

(** a robot driving forwards: in the front-back mirror it drives backwards, in the left-right
    mirror it is its own image *)
Example C88_example : config_ok exF /\ imu_stream (imus exOps) /\ protocol (build exF) exOps /\
  map (mir_op FrontBack) exOps <> exOps /\ mir_config LeftRight exF = exF /\ map (mir_op LeftRight) exOps = exOps /\ exists e, est_run (build exF) exOps = Ok e.
Proof.
  split; [exact exF_ok|]. split; [exact exStream|]. split; [exact exProtocol|]. split; [|split; [reflexivity|split]].
  - intros H. apply (f_equal (fun l => nth 2 l OClear)) in H. cbn in H. injection H. intros. lra.
  - assert (forall t, mir_imu LeftRight (exM t) = exM t) as HM.
    { intros t. unfold mir_imu, exM, qflip, axi, pol, vneg, vzero. cbn. f_equal; f_equal; ring. }
    assert (forall t, mir_vel LeftRight (exV t) = exV t) as HV by (intros t; unfold mir_vel, exV, pol; cbn; do 2 f_equal; ring).
    cbn [exOps exPre app map mir_op]. rewrite !HM, !HV. reflexivity.
  - destruct ex_states as (e4 & e5 & e6 & e7 & e8 & R3 & S4 & S5 & S6 & S7 & S8 & _). exists e8.
    cbn [exOps exPre app]. unfold est_run. cbn [foldM]. rewrite exS1. cbn [bind]. rewrite exS2. cbn [bind]. rewrite exS3. cbn [bind]. rewrite step_init, S4. cbn [bind].
    rewrite S5. cbn [bind]. rewrite step_run, S6. cbn [bind]. rewrite S7. cbn [bind]. rewrite step_run, S8. reflexivity.
Qed.
(** a robot on two feet, one of which lifts; its image stands on two mirrored feet *)
Example C88_example_legs : let os := sxPre ++ ORunOnce [] :: sxAfter true false in
  config_ok sxF /\ imu_stream (imus os) /\ protocol (build sxF) os /\ map (mir_op LeftRight) os <> os /\
  exists e, est_run (build sxF) os = Ok e /\ leg_tracked e 0.
Proof.
  intros os. split; [exact sxF_ok|]. split; [apply sx_stream|]. destruct (sx_run true false) as (e0 & e1 & e2 & e3 & c1 & c2 & PR & R0 & S1 & S2 & S3 & _ & _ & _ & _ & C2 & _ & _ & _ & T2 & _ & _ & TB).
  split; [exact PR|]. split.
  - unfold os, sxPre. cbn [app map mir_op]. intros H.
    pose proof (f_equal (fun l => match nth 2 l OClear with OLeg _ m => match lm_legs m with o :: _ => v1 (lo_pos o) | _ => 0 end | _ => 0 end) H) as E.
    unfold sxL, mir_leg, mir_obs, sxO, pol in E. cbn [nth lm_legs map lo_pos v0 v1 v2 lo_contact lo_J] in E. clear - E. unfold sgn in E. lra.
  - exists e3. split; [|apply TB, T2; auto]. unfold os. apply (run_app sxPre (ORunOnce [] :: sxAfter true false) (build sxF) e0 e3 R0).
    unfold sxAfter. rewrite run_cons, S1. cbn [bind]. rewrite run_cons, S2. cbn [bind]. rewrite run_cons, S3. reflexivity.
Qed.
(** For instance whoever drives straight ahead - no reading has a sideways component, the robot
    turns at most about its lateral axis, and its sensors are mounted and offset accordingly -
    is never estimated sideways: no sideways velocity or position, no heading, no roll, in
    the published states and in the log files, however long the drive. *)
Theorem C88_straight_ahead : forall f os, config_ok f -> imu_stream (imus os) -> protocol (build f) os -> config_straight f -> Forall op_straight os ->
  (forall s, In s (published any_op (build f) os) ->
    v1 (col (sX s) 0) = 0 /\ v1 (col (sX s) 1) = 0 /\
    m01 (rot (sX s)) = 0 /\ m10 (rot (sX s)) = 0 /\ m12 (rot (sX s)) = 0 /\ m21 (rot (sX s)) = 0) /\
  forall a, est_run (build f) os = Ok a -> Forall (fun l => v1 (ll_p l) = 0 /\ v1 (ll_v l) = 0) (e_lines a).
Proof. exact thm_straight. Qed.
Print Assumptions C88_straight_ahead.
Example C88_example_straight : config_ok exF /\ imu_stream (imus exOps) /\ protocol (build exF) exOps /\ config_straight exF /\ Forall op_straight exOps /\
  published any_op (build exF) exOps <> [].
Proof.
  split; [exact exF_ok|]. split; [exact exStream|]. split; [exact exProtocol|]. split; [|split].
  - unfold config_straight. do 4 (split; [intros y H; discriminate H|]). intros g Hg y H. destruct Hg as [Hg|[]]. injection Hg as <-. discriminate H.
  - unfold exOps, exPre. cbn [app].
    assert (forall t, op_straight (OImu (exM t))) as H1 by (intros t; unfold op_straight, imu_straight, exM, pitch_only, pitches, ahead, vzero; cbn; auto 10).
    assert (forall t, op_straight (OVel 0 (exV t))) as H2 by (intros t; unfold op_straight, vel_straight, exV, ahead; cbn; auto).
    repeat (constructor; [first [apply H1|apply H2|exact I|constructor]|]); constructor.
  - destruct ex_states as (e4 & e5 & e6 & e7 & e8 & R3 & S4 & S5 & S6 & S7 & S8 & _ & _ & _ & O6 & _).
    cbn [exOps exPre app published any_op]. rewrite exS1. cbn [app]. rewrite exS2. cbn [app]. rewrite exS3. cbn [app]. rewrite step_init, S4. cbn [app].
    rewrite S5. cbn [app]. rewrite step_run, S6, O6. intros H. apply (f_equal (@length _)) in H. rewrite !app_length, !skipn_length, !app_length in H. cbn [length] in H. lia.
Qed.
