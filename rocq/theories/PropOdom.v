(** Property C39: the wheel odometry baseline. *)
From Coq Require Import Reals ZArith List Bool Arith Lia Lra.
From Verif Require Import Res Vec3 Mat Spec LieGroup RobotState SpecFilter SpecProp Imu VelCorr ImuFilter Quat LieSO3 PropagationExact WheelOdom SpecOdom OdomThms OdomMore OdomExact.
Import ListNotations.
Local Open Scope R_scope.

(** C39: after any interleaving of pushes and RunOnce calls with non-zero stamps, the samples
    are used in order, one velocity paired with one rate, and the reported pose is the dead
    reckoning of the pairs used, each held over its own interval; the rotation is a rotation. *)
Theorem C39_dead_reckoning : forall b r l, (forall m, In m (pushed_v l) -> vm_t m <> 0) -> exists o ps, wo_run (WheelOdometry [] [] b r) l = Ok o /\
  pushed_v l = map fst ps ++ wo_vq o /\ pushed_a l = map snd ps ++ wo_aq o /\
  (ps <> [] -> exists t A v p, dead_reckoning ps t A v p /\ SO3 A /\ get_time (wo_s o) = Ok t /\ get_world_rotation (wo_s o) = Ok A /\ get_world_velocity (wo_s o) = Ok v /\ get_world_position (wo_s o) = Ok p).
Proof. exact thm_odometry. Qed.
Print Assumptions C39_dead_reckoning.
(** each call uses exactly one pair, and only when both queues hold a sample *)
Theorem C39_one_pair_per_call : forall b r l o o', (forall m, In m (pushed_v l) -> vm_t m <> 0) -> wo_run (WheelOdometry [] [] b r) l = Ok o -> WO_RunOnce o = Ok o' ->
  (wo_vq o = [] \/ wo_aq o = [] -> o' = o) /\ (forall m vq a aq, wo_vq o = m :: vq -> wo_aq o = a :: aq -> wo_vq o' = vq /\ wo_aq o' = aq).
Proof. exact thm_odometry_step. Qed.
Print Assumptions C39_one_pair_per_call.
(** the log has a line for exactly the samples (but the first) at which the period of the
    configured rate (10 if none is configured) has passed since the last line; every line is
    the dead-reckoned pose of an initial part of the samples *)
Theorem C39_log : forall b rate l, (forall m, In m (pushed_v l) -> vm_t m <> 0) -> let r := match rate with Some r => r | None => 10 end in exists o ps, wo_run (WheelOdometry [] [] b rate) l = Ok o /\
  pushed_v l = map fst ps ++ wo_vq o /\ pushed_a l = map snd ps ++ wo_aq o /\
  map ltime (wo_lines o) = (if b then log_times r 0 (map (fun p => vm_t (fst p)) (tl ps)) else []) /\
  apart (1 / r) (map ltime (wo_lines o)) /\ Forall (line_ok ps) (wo_lines o).
Proof. exact thm_odometry_log. Qed.
Print Assumptions C39_log.
(** the orientation is that of the true motion with the sample's rate; the position too when the
    velocity is along the rotation axis (straight motion) *)
Theorem C39_exact_rotation_and_straight_motion : forall b r l o m a vq aq t0 (Rb : R -> M3) (pb : R -> V3),
  (forall m, In m (pushed_v l) -> vm_t m <> 0) -> wo_run (WheelOdometry [] [] b r) l = Ok o -> wo_vq o = m :: vq -> wo_aq o = a :: aq -> get_time (wo_s o) = Ok t0 ->
  (forall s, mderiv Rb s (Rb s *m crossm (av_w a))) -> (forall s, vderiv pb s (Rb s *v vm_v m)) ->
  get_world_rotation (wo_s o) = Ok (Rb t0) -> get_world_position (wo_s o) = Ok (pb t0) ->
  (av_w a = vzero \/ TOLERANCE <= vnorm ((vm_t m - t0) *s av_w a)) ->
  exists o', WO_RunOnce o = Ok o' /\ get_time (wo_s o') = Ok (vm_t m) /\ get_world_rotation (wo_s o') = Ok (Rb (vm_t m)) /\
    (cross (av_w a) (vm_v m) = vzero -> get_world_position (wo_s o') = Ok (pb (vm_t m))).
Proof. exact thm_odometry_exact. Qed.
Print Assumptions C39_exact_rotation_and_straight_motion.
(** The claim "the pose stays in SE_2(3)" is false of the stored matrix: its bottom rows are all ones. *)
Theorem C39_matrix_in_group_refuted : forall s v w dt s', nr (sX s) = 5%nat -> nc (sX s) = 5%nat -> Integrate s v w dt = Ok s' -> ~ SEK 2 (sX s').
Proof. exact thm_matrix_refuted. Qed.
Print Assumptions C39_matrix_in_group_refuted.
(** "integrates on the group": false of the position while turning (one Euler step). *)
Theorem C39_turning_position_refuted : exists m1 m2 a1 a2 o1 o2 p (Rb : R -> M3) (pb : R -> V3),
  WO_RunOnce (WheelOdometry [m1; m2] [a1; a2] false None) = Ok o1 /\ WO_RunOnce o1 = Ok o2 /\ wo_vq o2 = [] /\ get_world_position (wo_s o2) = Ok p /\
  vm_t m1 <> 0 /\ vm_t m1 < vm_t m2 /\
  (forall s, mderiv Rb s (Rb s *m crossm (av_w a2))) /\ (forall s, vderiv pb s (Rb s *v vm_v m2)) /\ Rb (vm_t m1) = mid /\ pb (vm_t m1) = vzero /\ pb (vm_t m2) <> p.
Proof. exact thm_turning_refuted. Qed.
Print Assumptions C39_turning_position_refuted.
(** a stamp of exactly zero is taken for "no sample yet": the next interval is lost *)
Theorem C39_zero_stamp_refuted : exists m1 m2 m3 a o1 o2 o3 t A v p,
  WO_RunOnce (WheelOdometry [m1; m2; m3] [a; a; a] false None) = Ok o1 /\ WO_RunOnce o1 = Ok o2 /\ WO_RunOnce o2 = Ok o3 /\ wo_vq o3 = [] /\
  vm_t m1 < vm_t m2 /\ vm_t m2 < vm_t m3 /\
  dead_reckoning [(m1, a); (m2, a); (m3, a)] t A v p /\ get_world_position (wo_s o3) <> Ok p.
Proof. exact thm_zero_stamp_refuted. Qed.
Print Assumptions C39_zero_stamp_refuted.

(** ** Examples: the hypotheses are met *)
Example C39_example : let l := [WVel (mkVM 1 (mkV 1 0 0)); WAng (mkAV 1 (mkV 0 0 1)); WRun; WVel (mkVM 2 (mkV 1 0 0)); WAng (mkAV 2 (mkV 0 0 1)); WRun] in
  (forall m, In m (pushed_v l) -> vm_t m <> 0) /\ exists o, wo_run (WheelOdometry [] [] true (Some 1)) l = Ok o /\ wo_vq o = [] /\ exists p, get_world_position (wo_s o) = Ok p /\ p = mkV 1 0 0.
Proof.
  intros l. assert (forall m, In m (pushed_v l) -> vm_t m <> 0) as NZ by (intros m [<-|[<-|[]]]; cbn; lra). split; [exact NZ|].
  destruct (thm_odometry true (Some 1) l NZ) as (o & ps & E & V & A & H). exists o. split; [exact E|].
  pose (o1 := wo_set_queues (WheelOdometry [] [] true (Some 1)) [mkVM 1 (mkV 1 0 0)] [mkAV 1 (mkV 0 0 1)]).
  assert (WO_RunOnce o1 = Ok (wo_set_state (wo_set_queues o1 [] []) (set_time (wo_s o1) 1) 1)) as R1.
  { unfold WO_RunOnce, o1. cbn [wo_set_queues wo_vq wo_aq wo_prev WheelOdometry]. destruct (Req_EM_T 0 0); [reflexivity|contradiction]. }
  set (o2 := wo_set_queues (wo_set_state (wo_set_queues o1 [] []) (set_time (wo_s o1) 1) 1) [mkVM 2 (mkV 1 0 0)] [mkAV 2 (mkV 0 0 1)]).
  assert (exists o3, WO_RunOnce o2 = Ok o3 /\ wo_vq o3 = []) as (o3 & R2 & Q).
  { destruct (Integrate_eq (wo_s o2) (mkV 1 0 0) (mkV 0 0 1) (2 - 1) 1) as (E' & s' & _ & HI & T' & _ & TT & _); [split; reflexivity|reflexivity|].
    destruct (LogPose_eq (wo_set_state (wo_set_queues o2 [] []) s' 2) _ T' TT) as (o3 & E2 & E3 & _ & E4 & _). exists o3. split; [|exact E4].
    unfold WO_RunOnce, o2. cbn [wo_set_queues wo_vq wo_aq wo_prev wo_set_state]. destruct (Req_EM_T 1 0) as [C|_]; [lra|]. unfold o2 in HI, E2. cbn [wo_set_queues wo_s wo_set_state] in HI. cbn [vm_t vm_v av_w wo_s wo_set_queues wo_set_state]. rewrite HI. exact E2. }
  assert (wo_run (WheelOdometry [] [] true (Some 1)) l = WO_RunOnce o2) as R.
  { unfold wo_run, l. transitivity (let* x := WO_RunOnce o1 in foldM wo_step x [WVel (mkVM 2 (mkV 1 0 0)); WAng (mkAV 2 (mkV 0 0 1)); WRun]); [reflexivity|].
    rewrite R1. cbn [bind]. transitivity (let* x := WO_RunOnce o2 in foldM wo_step x []); [reflexivity|]. destruct (WO_RunOnce o2); reflexivity. }
  rewrite R, R2 in E. injection E as <-. split; [exact Q|]. rewrite Q in V. 
  destruct ps as [|[q1 b1] [|[q2 b2] [|]]]; try discriminate. cbn in V. injection V as <- <-. destruct H as (t & A' & v & p & D & _ & _ & _ & _ & P); [discriminate|]. exists p. split; [exact P|].
  inversion D as [|l1 t1 A1 v1 p1 m1 a1 E1 D1 HE L]. destruct l1 as [|x1 [|y1 l1]]; cbn in L; [inversion L| |injection L as _ _ L; destruct l1; discriminate].
  injection L as -> -> ->. inversion D1 as [|l2 ? ? ? ? ? ? ? D2 _ L2]; [|destruct l2 as [|? [|]]; [inversion D2; destruct l0; discriminate|discriminate|discriminate]].
  subst. cbn [vm_t vm_v]. ring3.
Qed.
