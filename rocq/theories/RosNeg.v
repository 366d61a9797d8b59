(** What the ROS layer gets wrong, and the link from the estimator to the publisher. *)
From Coq Require Import Reals ZArith List Bool Arith Lia Lra.
From Verif Require Import Res Vec3 Mat MatInv Psd Spec LieGroup LieSO3 LieSEK RobotState StateProofs SpecFilter InekfProofs SpecProp Imu Propagation PropagationExact ImuNeg VelCorr LegCorr ImuFilter Quat QuatThms Kinematics Blk PsdBlk Estimator SpecEst EstSafe EstPub OdomMore Ros SpecRos RosPub RosOdom.
Import ListNotations.
Local Open Scope R_scope.

Lemma thm_estimator_publishable f os e : reachable f os e -> Forall publishable (e_out e).
Proof.
  intros H. pose proof (ok_pub _ _ (reach_ok _ _ _ H)) as W. unfold waiting in W. apply Forall_app in W. destruct W as [W _]. eapply Forall_impl; [|exact W]. intros s (n & t & A & _ & B). exists (2 + n)%nat, t. auto.
Qed.
Lemma nth_cov P i j : (i < 6)%nat -> (j < 6)%nat -> nth_error (cov_of P) (6 * i + j) = Some (ent P i j).
Proof.
  intros Hi Hj. unfold cov_of. erewrite map_nth_error; [|rewrite (nth_error_nth' _ 0%nat) by (rewrite seq_length; lia); rewrite seq_nth by lia; reflexivity]. rewrite Nat.add_0_l.
  f_equal. rewrite (Nat.mul_comm 6 i), Nat.div_add_l, Nat.div_small, Nat.add_0_r, Nat.add_comm, Nat.mod_add, Nat.mod_small by lia. reflexivity.
Qed.
Lemma thm_cov k pr par l p ss : ratio_is k pr par -> no_clear l -> Forall publishable (pushed_states l) -> pub_run (ROSPublisher [] pr par) l = Ok p -> pushed_states l = ss ++ pb_q p ->
  forall n s m, nth_error ss n = Some s -> nth_error (pb_sent p) n = Some m -> forall i j, (i < 6)%nat -> (j < 6)%nat -> nth_error (pm_cov m) (6 * i + j) = Some (ent (sP s) i j).
Proof.
  intros H1 H2 H3 H4 H5 n s m N1 N2 i j Hi Hj. destruct (pub_run_inv k pr par l H1 H2 H3) as (p' & E & ss' & _ & _ & _ & A & S & C & _). rewrite H4 in E. injection E as <-.
  assert (ss' = ss) as -> by (rewrite H5 in A; apply app_inv_tail in A; congruence). rewrite (C n s m N1 N2). apply nth_cov; auto.
Qed.
Definition ex_P : mat := bdiag 5 (fun b => (if Nat.eqb b 2 then 2 else 1) *ms mid).
Lemma ex_P_psd : psd ex_P.
Proof. apply psd_bdiag. intros b _. apply psd_std. destruct (Nat.eqb b 2); lra. Qed.
Definition ex_pub : rstate := ex_state 2 ex_P 1.
Lemma ex_pub_ok : publishable ex_pub.
Proof. exists 2%nat, 1. split; [apply ex_wfp; auto|reflexivity]. Qed.
Lemma ratio_100 : ratio_is 100 1000 10.
Proof. unfold ratio_is. replace (1000 / 10) with 100 by field. cbn [INR]. repeat split; try lra; lia. Qed.
Lemma thm_cov_refuted : exists l p s m, pub_run (ROSPublisher [] 1000 10) l = Ok p /\ pushed_states l = [s] /\ pb_sent p = [m] /\ publishable s /\ psd (sP s) /\ ~ is_pose_covariance (sP s) (pm_cov m).
Proof.
  set (l := [PPush ex_pub; PCheck; PTake]). assert (no_clear l) as NC by (intros [H|[H|[H|[]]]]; discriminate). assert (Forall publishable (pushed_states l)) as PB by (repeat constructor; apply ex_pub_ok).
  destruct (pub_run_inv 100 1000 10 [PPush ex_pub] ratio_100) as (p0 & E0 & _); [intros [H|[]]; discriminate|repeat constructor; apply ex_pub_ok|]. 
  destruct (thm_pose_pass 100 1000 10 [PPush ex_pub] p0 ex_pub [] ratio_100) as (p & m & E & Q & S & Y); [intros [H|[]]; discriminate|repeat constructor; apply ex_pub_ok|exact E0|injection E0 as <-; reflexivity|].
  assert (pub_run (ROSPublisher [] 1000 10) l = Ok p) as EL by (unfold pub_run in *; change l with ([PPush ex_pub] ++ [PCheck; PTake]); rewrite foldM_app, E0; exact E).
  assert (pb_sent p0 = []) as S0 by (injection E0 as <-; reflexivity). rewrite S0 in S. exists l, p, ex_pub, m. split; [exact EL|]. split; [reflexivity|]. split; [exact S|]. split; [apply ex_pub_ok|]. split; [apply ex_P_psd|].
  intros H. assert (pushed_states l = [ex_pub] ++ pb_q p) as PS by (rewrite Q; reflexivity).
  pose proof (thm_cov 100 1000 10 l p [ex_pub] ratio_100 NC PB EL PS 0%nat ex_pub m eq_refl) as C. rewrite S in C. specialize (C eq_refl 0%nat 0%nat ltac:(lia) ltac:(lia)).
  specialize (H 0%nat 0%nat ltac:(lia) ltac:(lia)). rewrite C in H.
  assert (ent ex_P 0 0 = ent ex_P 6 6) as Q6 by (injection H; auto). unfold ex_P, bdiag, blk in Q6. rewrite !ent_mk in Q6 by lia. cbn in Q6. lra.
Qed.
(** the estimator's clear between the publisher's test and its pop *)
Lemma thm_clear_race pr par s : pub_run (ROSPublisher [] pr par) [PPush s; PCheck; PClear; PTake] = Fail EmptyQueue.
Proof. reflexivity. Qed.
(** a path rate above the pose rate *)
Lemma thm_fast_path pr par s : publishable s -> 0 <= pr -> pr < par -> pub_run (ROSPublisher [] pr par) [PPush s; PCheck; PTake] = Fail DivZero.
Proof.
  intros PS H1 H2. destruct (pub_facts s PS) as (t & E1 & _ & E3 & E4 & _ & E6). unfold pub_run. cbn [foldM pub_step bind].
  match goal with |- context [PoseTake ?p] => assert (PoseTake p = Fail DivZero) as -> end; [|reflexivity].
  unfold PoseTake, PoseCheck. cbn [pub_set_q ROSPublisher pb_took pb_q app pb_pose_rate pb_path_rate]. rewrite E1. cbn [bind]. rewrite E3. cbn [bind]. rewrite E4. cbn [bind]. rewrite E6. cbn [bind]. destruct (Req_EM_T par 0); [lra|]. cbn [check bind].
  assert (0 <= pr / par < 1) as [Q1 Q2] by (split; [apply Rmult_le_pos; [lra|apply Rlt_le, Rinv_0_lt_compat; lra]|apply (Rmult_lt_reg_r par); [lra|]; unfold Rdiv; rewrite Rmult_assoc, Rinv_l by lra; lra]).
  assert (int_of_double (pr / par) = Ok 0%Z) as ->; [|reflexivity].
  unfold int_of_double, trunc. destruct (Rle_dec 0 (pr / par)); [|contradiction]. assert (up (pr / par) = 1%Z) as -> by (symmetry; apply tech_up; lra). reflexivity.
Qed.
(** ** two odometry sources *)
Lemma thm_two_sources_refuted : exists t0 q0 t1 q1 m1 m2 o w v v' Rb pb, let s1 := time_of (om_stamp m1) in let s2 := time_of (om_stamp m2) in
  os_run ROSSubscriber_odom [OSAdd t0 q0; OSAdd t1 q1; OSMsg m1 0; OSMsg m2 0] = Ok o /\ constant_twist w v Rb pb /\
  odom_reports m1 (toRotationMatrix q0) t0 (Rb s1) (pb s1) /\ odom_reports m2 (toRotationMatrix q0) t0 (Rb s2) (pb s2) /\ s1 < s2 /\ vnorm w * (s2 - s1) < PI /\
  nth_error (os_q o) 0 = Some [mkVM s2 v'] /\ v' <> v.
Proof.
  set (q1 := mkQ 1 0 0 0). set (e1 := mkV 1 0 0). set (m1 := mkOM (mkStamp 0 0) vzero q1). set (m2 := mkOM (mkStamp 1 0) vzero (mkQ (cos (1 / 2)) 0 0 (sin (1 / 2)))).
  set (w := mkV 0 0 1). set (Rb := fun t : R => rotz (1 * t)).
  assert (toRotationMatrix q1 = mid) as Q1 by (unfold toRotationMatrix, mid, q1; cbn; f_equal; ring).
  assert (toRotationMatrix (om_q m2) = rotz 1) as Q2.
  { unfold toRotationMatrix, rotz, m2. cbn. replace (cos 1) with (cos (2 * (1 / 2))) by (f_equal; field). replace (sin 1) with (sin (2 * (1 / 2))) by (f_equal; field). rewrite sin_2a, cos_2a. pose proof (sin2_cos2 (1 / 2)) as SC. unfold Rsqr in SC. f_equal; lra. }
  assert (time_of (om_stamp m1) = 0) as T1 by (unfold time_of; cbn; field). assert (time_of (om_stamp m2) = 1) as T2 by (unfold time_of; cbn; field).
  assert (forall t, mderiv Rb t (Rb t *m crossm w)) as HR.
  { intros t i j Hi Hj. unfold Rb, rotz, crossm, w. destruct i as [|[|[|i]]]; try lia; destruct j as [|[|[|j]]]; try lia; cbn [mget m00 m01 m02 m10 m11 m12 m20 m21 m22 mmul v0 v1 v2].
    all: try (eapply ds; [apply derivable_pt_lim_const|ring]).
    all: try (eapply ds; [apply dcos|ring]). all: try (eapply ds; [apply dsin|ring]). eapply ds; [apply (derivable_pt_lim_opp (fun s => sin (1 * s))); apply dsin|ring]. }
  assert (forall t, SO3 (rotz t)) as SR.
  { intros t. pose proof (sin2_cos2 t) as SC. unfold Rsqr in SC. split; [unfold rotz, mid; apply M3_eq; u3; lra|unfold rotz, det3; cbn; lra]. }
  assert (constant_twist w vzero Rb (fun _ => vzero)) as CT.
  { split; [exact HR|]. intros t. replace (Rb t *v vzero) with vzero by (generalize (Rb t); intros; unfold vzero; ring3). apply vderiv_const. }
  assert (constant_twist w (mkV 0 1 0) Rb (fun t => Rb t *v e1)) as CT'.
  { split; [exact HR|]. intros t. replace (Rb t *v mkV 0 1 0) with (Rb t *m crossm w *v e1) by (generalize (Rb t); intros; unfold crossm, w, e1; ring3). apply vderiv_mv, HR. }
  assert (vnorm w = 1) as NW by (unfold vnorm, vdot, w; cbn; replace (0 * 0 + 0 * 0 + 1 * 1) with 1 by ring; apply sqrt_1).
  assert (PI > 1) as PI1 by (pose proof PI2_1; pose proof PI_RGT_0; unfold PI2 in *; lra).
  assert (exists o1, os_run ROSSubscriber_odom [OSAdd vzero q1; OSAdd e1 q1; OSMsg m1 0] = Ok o1 /\ nth_error (os_q o1) 0 = Some []) as (o1 & E1 & N1) by (eexists; split; reflexivity).
  destruct (thm_odom_velocity [OSAdd vzero q1; OSAdd e1 q1] _ 0 m1 o1 m2 e1 q1 w (mkV 0 1 0) Rb (fun t => Rb t *v e1) eq_refl eq_refl) as (o2 & vq & E2 & N2 & N3 & _).
  - rewrite Q1. apply SO3_id.
  - exact E1.
  - exact CT'.
  - rewrite T1, Q1. unfold odom_reports. cbn [om_q om_p m1]. rewrite Q1. split; [apply SO3_id|]. unfold Rb. rewrite Rmult_0_r. unfold rotz. rewrite cos_0, sin_0. split; unfold mid, e1, vzero; ring3.
  - rewrite T2, Q1. unfold odom_reports. rewrite Q2. cbn [om_p m2]. unfold Rb. rewrite Rmult_1_r. split; [apply SR|]. generalize (rotz 1). intros M. split; unfold mid, e1, vzero; destruct M; ring3.
  - rewrite T1, T2. lra.
  - rewrite T1, T2, NW. lra.
  - exists vzero, q1, e1, q1, m1, m2, o2, w, vzero, (mkV 0 1 0), Rb, (fun _ => vzero). cbv zeta. rewrite N1 in N2. injection N2 as <-.
    split; [unfold os_run in *; change [OSAdd vzero q1; OSAdd e1 q1; OSMsg m1 0; OSMsg m2 0] with ([OSAdd vzero q1; OSAdd e1 q1; OSMsg m1 0] ++ [OSMsg m2 0]); rewrite foldM_app, E1; cbn [bind foldM os_step]; rewrite E2; reflexivity|].
    split; [exact CT|]. rewrite T1, T2, Q1. split; [|split; [|split; [lra|split; [rewrite NW; lra|split]]]].
    + unfold odom_reports. cbn [om_q om_p m1]. rewrite Q1. split; [apply SO3_id|]. unfold Rb. rewrite Rmult_0_r. unfold rotz. rewrite cos_0, sin_0. split; unfold mid, vzero; ring3.
    + unfold odom_reports. rewrite Q2. cbn [om_p m2]. unfold Rb. rewrite Rmult_1_r. split; [apply SR|]. generalize (rotz 1). intros M. split; unfold mid, vzero; destruct M; ring3.
    + rewrite T2 in N3. exact N3.
    + intros C. injection C as C. lra.
Qed.
(** equal stamps *)
Lemma thm_equal_stamps o m1 o1 m2 id E pT : os_ext o = Some (transform E pT) -> SO3 E -> Odom2VelocityCallback o m1 id = Ok o1 -> SO3 (toRotationMatrix (om_q m1)) -> time_of (om_stamp m1) = time_of (om_stamp m2) -> Odom2VelocityCallback o1 m2 id = Fail DivZero.
Proof.
  intros HE SE HC S1 HT. destruct (callback_meta _ _ _ _ HC) as (L & E1 & E2 & E3). unfold Odom2VelocityCallback, vec_at. rewrite E3, upd_get by exact L. cbn [of_opt bind]. rewrite E1, HE. cbn [of_opt bind].
  rewrite (tf_inv E pT SE). cbn [bind]. rewrite (tf_inv _ (om_p m1) S1). cbn [bind]. 
  rewrite cmul_ok by reflexivity. cbn [bind]. rewrite tf_mul. rewrite cmul_ok by reflexivity. cbn [bind]. rewrite tf_mul. rewrite cmul_ok by reflexivity. cbn [bind].
  destruct (Req_EM_T (time_of (om_stamp m2) - time_of (om_stamp m1)) 0) as [_|C]; [reflexivity|]. exfalso. apply C. lra.
Qed.
(** a robot turning on a circle, seen by two sources with the same mounting *)
Lemma thm_odom_example : exists t q m1 m2 w v Rb pb o, let l2 := [OSMsg m1 1] in let l := [OSAdd t q; OSAdd t q] ++ OSMsg m1 0 :: l2 in let t1 := time_of (om_stamp m1) in let t2 := time_of (om_stamp m2) in
  Forall (adds t q) l /\ Forall (elsewhere 0) l2 /\ SO3 (toRotationMatrix q) /\ os_run ROSSubscriber_odom l = Ok o /\ constant_twist w v Rb pb /\
  odom_reports m1 (toRotationMatrix q) t (Rb t1) (pb t1) /\ odom_reports m2 (toRotationMatrix q) t (Rb t2) (pb t2) /\ t1 < t2 /\ vnorm w * (t2 - t1) < PI /\ w <> vzero /\ v = mkV 0 1 0.
Proof.
  set (q1 := mkQ 1 0 0 0). set (e1 := mkV 1 0 0). set (m1 := mkOM (mkStamp 0 0) vzero q1). set (m2 := mkOM (mkStamp 1 0) vzero (mkQ (cos (1 / 2)) 0 0 (sin (1 / 2)))).
  set (w := mkV 0 0 1). set (Rb := fun t : R => rotz (1 * t)).
  assert (toRotationMatrix q1 = mid) as Q1 by (unfold toRotationMatrix, mid, q1; cbn; f_equal; ring).
  assert (toRotationMatrix (om_q m2) = rotz 1) as Q2.
  { unfold toRotationMatrix, rotz, m2. cbn. replace (cos 1) with (cos (2 * (1 / 2))) by (f_equal; field). replace (sin 1) with (sin (2 * (1 / 2))) by (f_equal; field). rewrite sin_2a, cos_2a. pose proof (sin2_cos2 (1 / 2)) as SC. unfold Rsqr in SC. f_equal; lra. }
  assert (time_of (om_stamp m1) = 0) as T1 by (unfold time_of; cbn; field). assert (time_of (om_stamp m2) = 1) as T2 by (unfold time_of; cbn; field).
  assert (forall t, mderiv Rb t (Rb t *m crossm w)) as HR.
  { intros t i j Hi Hj. unfold Rb, rotz, crossm, w. destruct i as [|[|[|i]]]; try lia; destruct j as [|[|[|j]]]; try lia; cbn [mget m00 m01 m02 m10 m11 m12 m20 m21 m22 mmul v0 v1 v2].
    all: try (eapply ds; [apply derivable_pt_lim_const|ring]).
    all: try (eapply ds; [apply dcos|ring]). all: try (eapply ds; [apply dsin|ring]). eapply ds; [apply (derivable_pt_lim_opp (fun s => sin (1 * s))); apply dsin|ring]. }
  assert (forall t, SO3 (rotz t)) as SR.
  { intros t. pose proof (sin2_cos2 t) as SC. unfold Rsqr in SC. split; [unfold rotz, mid; apply M3_eq; u3; lra|unfold rotz, det3; cbn; lra]. }
  assert (constant_twist w (mkV 0 1 0) Rb (fun t => Rb t *v e1)) as CT'.
  { split; [exact HR|]. intros t. replace (Rb t *v mkV 0 1 0) with (Rb t *m crossm w *v e1) by (generalize (Rb t); intros; unfold crossm, w, e1; ring3). apply vderiv_mv, HR. }
  assert (vnorm w = 1) as NW by (unfold vnorm, vdot, w; cbn; replace (0 * 0 + 0 * 0 + 1 * 1) with 1 by ring; apply sqrt_1).
  assert (PI > 1) as PI1 by (pose proof PI2_1; pose proof PI_RGT_0; unfold PI2 in *; lra).
  exists e1, q1, m1, m2, w, (mkV 0 1 0), Rb, (fun t => Rb t *v e1). eexists. cbv zeta. split; [repeat constructor|]. split; [repeat constructor; discriminate|].
  split; [rewrite Q1; apply SO3_id|]. split; [reflexivity|]. split; [exact CT'|].
  split. { rewrite T1, Q1. unfold odom_reports. cbn [om_q om_p m1]. rewrite Q1. split; [apply SO3_id|]. unfold Rb. rewrite Rmult_0_r. unfold rotz. rewrite cos_0, sin_0. split; unfold mid, e1, vzero; ring3. }
  split. { rewrite T2, Q1. unfold odom_reports. rewrite Q2. cbn [om_p m2]. unfold Rb. rewrite Rmult_1_r. split; [apply SR|]. generalize (rotz 1). intros M. split; unfold mid, e1, vzero; destruct M; ring3. }
  split; [rewrite T1, T2; lra|]. split; [rewrite T1, T2, NW; lra|]. split; [|reflexivity]. intros C. apply (f_equal v2) in C. cbn in C. lra.
Qed.
