(** Proofs about the ROS message callbacks and the publisher. *)
From Coq Require Import Reals ZArith List Bool Arith Lia Lra.
From Verif Require Import Res Vec3 Mat MatInv Psd Spec LieGroup LieSO3 LieSEK RobotState StateProofs SpecFilter InekfProofs SpecProp Imu Propagation VelCorr LegCorr ImuFilter Quat QuatThms Kinematics SpecKin KinThms KinVel Ros SpecRos.
Import ListNotations.
Local Open Scope R_scope.

(** ** encoders *)
Lemma thm_encoder msg radius q e0 e1 e2 e3 rest : js_vel msg = e0 :: e1 :: e2 :: e3 :: rest ->
  DifferentialEncoder2VelocityCallback msg radius q = Ok (q ++ [mkVM (time_of (js_stamp msg)) (drive_speed ((e0 + e2) / 2) ((e1 + e3) / 2) radius)]).
Proof. intros E. unfold DifferentialEncoder2VelocityCallback, vec_at. rewrite E. cbn [nth_error of_opt bind]. unfold drive_speed. do 5 f_equal. field. Qed.
Lemma thm_encoder_w msg radius track q aq e0 e1 e2 e3 rest : js_vel msg = e0 :: e1 :: e2 :: e3 :: rest -> track <> 0 ->
  DifferentialEncoder2VelocityCallback_w msg radius track q aq =
    Ok (q ++ [mkVM (time_of (js_stamp msg)) (drive_speed ((e0 + e2) / 2) ((e1 + e3) / 2) radius)], aq ++ [mkAV (time_of (js_stamp msg)) (drive_yaw_rate ((e0 + e2) / 2) ((e1 + e3) / 2) radius track)]).
Proof.
  intros E T. unfold DifferentialEncoder2VelocityCallback_w, vec_at. rewrite E. cbn [nth_error of_opt bind]. destruct (Req_EM_T track 0); [contradiction|]. cbn [check bind]. unfold drive_speed, drive_yaw_rate.
  f_equal. f_equal; do 4 f_equal; field; auto.
Qed.
Lemma thm_encoder_fetch msg radius q e0 e1 e2 rest : js_vel msg = e0 :: e1 :: e2 :: rest ->
  DifferentialEncoder2LinearVelocityCallback_Fetch msg radius q = Ok (q ++ [mkVM (time_of (js_stamp msg)) (drive_speed e0 e1 radius)]).
Proof. intros E. unfold DifferentialEncoder2LinearVelocityCallback_Fetch, vec_at. rewrite E. cbn [length Nat.leb nth_error of_opt bind]. unfold drive_speed. do 5 f_equal. field. Qed.
Lemma thm_encoder_fetch_w msg radius track q aq e0 e1 e2 rest : js_vel msg = e0 :: e1 :: e2 :: rest -> track <> 0 ->
  DifferentialEncoder2VelocityCallback_Fetch msg radius track q aq =
    Ok (q ++ [mkVM (time_of (js_stamp msg)) (drive_speed e0 e1 radius)], aq ++ [mkAV (time_of (js_stamp msg)) (drive_yaw_rate e0 e1 radius track)]).
Proof.
  intros E T. unfold DifferentialEncoder2VelocityCallback_Fetch, vec_at. rewrite E. cbn [length Nat.leb nth_error of_opt bind]. destruct (Req_EM_T track 0); [contradiction|]. cbn [check bind]. unfold drive_speed, drive_yaw_rate.
  f_equal. f_equal; do 4 f_equal; field; auto.
Qed.
Lemma thm_fetch_rejects msg radius track q aq : (length (js_vel msg) <= 2)%nat ->
  DifferentialEncoder2LinearVelocityCallback_Fetch msg radius q = Ok q /\ DifferentialEncoder2VelocityCallback_Fetch msg radius track q aq = Ok (q, aq).
Proof. intros H. apply Nat.leb_le in H. unfold DifferentialEncoder2LinearVelocityCallback_Fetch, DifferentialEncoder2VelocityCallback_Fetch. rewrite H. auto. Qed.
Lemma thm_encoder_short msg radius track q aq : (length (js_vel msg) < 4)%nat ->
  DifferentialEncoder2VelocityCallback msg radius q = Fail BadRead /\ DifferentialEncoder2VelocityCallback_w msg radius track q aq = Fail BadRead.
Proof.
  intros H. unfold DifferentialEncoder2VelocityCallback, DifferentialEncoder2VelocityCallback_w, vec_at.
  destruct (js_vel msg) as [|e0 [|e1 [|e2 [|e3 r]]]]; cbn in *; try lia; auto.
Qed.
Lemma thm_track_zero msg radius q aq : (4 <= length (js_vel msg))%nat ->
  DifferentialEncoder2VelocityCallback_w msg radius 0 q aq = Fail DivZero /\ DifferentialEncoder2VelocityCallback_Fetch msg radius 0 q aq = Fail DivZero.
Proof.
  intros H. unfold DifferentialEncoder2VelocityCallback_w, DifferentialEncoder2VelocityCallback_Fetch, vec_at.
  destruct (js_vel msg) as [|e0 [|e1 [|e2 [|e3 r]]]]; cbn in *; try lia. destruct (Req_EM_T 0 0); [auto|contradiction].
Qed.

(** ** IMU *)
Lemma quat_norm_0 q : quat_norm q = 0 <-> q = mkQ 0 0 0 0.
Proof.
  unfold quat_norm. destruct q as [a b c d]. cbn. split.
  - intros H. apply sqrt_eq_0 in H; [|nra]. assert (a = 0) by nra. assert (b = 0) by nra. assert (c = 0) by nra. assert (d = 0) by nra. subst. reflexivity.
  - intros E. injection E as -> -> -> ->. replace (0 * 0 + 0 * 0 + 0 * 0 + 0 * 0) with 0 by ring. apply sqrt_0.
Qed.
Lemma put_orientation_eq m q : 
  (q = mkQ 0 0 0 0 -> put_orientation m q = Ok m) /\
  (Rabs (qnorm2 q - 1) < 1 / 100000 -> put_orientation m q = Ok (mkImu (i_t m) q (i_w m) (i_a m))) /\
  (q <> mkQ 0 0 0 0 -> 1 / 100000 <= Rabs (qnorm2 q - 1) -> put_orientation m q = Fail Throw).
Proof.
  unfold put_orientation. destruct (Req_EM_T (quat_norm q) 0) as [E|E].
  - apply quat_norm_0 in E. split; [auto|]. split; [|intros; contradiction]. intros H. subst q. unfold qnorm2 in H. cbn in H. exfalso.
    replace (_ - 1) with (Ropp 1) in H by ring. rewrite Rabs_left in H by lra. lra.
  - split; [intros ->; exfalso; apply E, quat_norm_0; reflexivity|]. unfold set_quaternion, validate_quat, qnorm2. destruct q as [a b c d]. cbn [qw qx qy qz].
    replace (a ^ 2 + b ^ 2 + c ^ 2 + d ^ 2 - 1) with (a * a + b * b + c * c + d * d - 1) by ring.
    destruct (Rle_dec (1 / 100000) (Rabs (a * a + b * b + c * c + d * d - 1))); (split; [intros H|intros _ H]; auto; try (exfalso; lra)).
Qed.
Lemma thm_imu_msg msg q : 
  (im_q msg = mkQ 0 0 0 0 -> IMUCallback msg q = Ok (q ++ [mkImu (time_of (im_stamp msg)) (mkQ 1 0 0 0) (im_w msg) (im_a msg)])) /\
  (Rabs (qnorm2 (im_q msg) - 1) < 1 / 100000 -> IMUCallback msg q = Ok (q ++ [mkImu (time_of (im_stamp msg)) (im_q msg) (im_w msg) (im_a msg)])) /\
  (im_q msg <> mkQ 0 0 0 0 -> 1 / 100000 <= Rabs (qnorm2 (im_q msg) - 1) -> IMUCallback msg q = Fail Throw).
Proof.
  unfold IMUCallback. set (m := set_lin_acc _ _ _ _). assert (m = mkImu (time_of (im_stamp msg)) (mkQ 1 0 0 0) (im_w msg) (im_a msg)) as -> by (unfold m, set_lin_acc, set_angular_velocity, set_stamp; cbn; destruct (im_w msg), (im_a msg); reflexivity).
  match goal with |- context [put_orientation ?m ?q] => destruct (put_orientation_eq m q) as (H1 & H2 & H3) end.
  split; [|split]; intros; [rewrite H1|rewrite H2|rewrite H3]; auto.
Qed.
Lemma thm_fetch_imu_msg msg off q : FetchIMUCallBack msg off q = IMUCallback (mkImuMsg (im_stamp msg) (im_w msg +v off) (im_a msg) (im_q msg)) q.
Proof. reflexivity. Qed.

(** ** legs *)
Lemma read_n_ok {A} (l : list A) n : (n <= length l)%nat -> read_n l n = Ok (firstn n l).
Proof.
  induction n as [|n IH]; intros H; [reflexivity|]. cbn [read_n]. rewrite IH by lia. cbn [bind]. unfold vec_at. destruct (nth_error l n) as [x|] eqn:E; [|apply nth_error_None in E; lia].
  cbn [of_opt bind]. f_equal. clear IH H. revert n E. induction l as [|y l IHl]; intros [|n] E; try discriminate; cbn in *; [congruence|]. f_equal. apply IHl. exact E.
Qed.
Lemma read_n_bad {A} (l : list A) n : (length l < n)%nat -> read_n l n = Fail BadRead.
Proof.
  induction n as [|n IH]; intros H; [lia|]. cbn [read_n]. destruct (Nat.eq_dec (length l) n) as [E|E].
  - rewrite read_n_ok by lia. cbn [bind]. unfold vec_at. replace (nth_error l n) with (@None A) by (symmetry; apply nth_error_None; lia). reflexivity.
  - rewrite IH by lia. reflexivity.
Qed.
Lemma thm_leg_msg cs contacts msg q : (4 <= length contacts)%nat -> (12 <= length (js_pos msg))%nat -> (12 <= length (js_vel msg))%nat ->
  exists k lm, MiniCheetahKinCallBack cs contacts msg q = Ok (q ++ [(time_of cs, k)]) /\ leg_view (time_of cs) k = Ok lm /\ lm_t lm = time_of cs /\
  k_contacts k = firstn 4 contacts /\ k_enc k = firstn 12 (js_pos msg) /\ k_denc k = firstn 12 (js_vel msg) /\
  forall l, exists o, nth_error (lm_legs lm) (leg_id l) = Some o /\ nth_error contacts (leg_id l) = Some (lo_contact o) /\
    lo_pos o = foot_pos (leg_geom l) (fun j => nth j (js_pos msg) 0).
Proof.
  intros H1 H2 H3. unfold MiniCheetahKinCallBack. rewrite !read_n_ok by lia. cbn [bind].
  set (k := set_joint_state_velocity _ _). exists k. 
  assert (kin_shaped k) as KS by (constructor; reflexivity).
  assert (length (k_enc k) = 12%nat) as L1 by (cbn [k set_joint_state_velocity set_joint_state set_contact k_enc k_contacts]; rewrite firstn_length; lia).
  assert (length (k_contacts k) = 4%nat) as L2 by (cbn [k set_joint_state_velocity set_joint_state set_contact k_enc k_contacts]; rewrite firstn_length; lia).
  destruct (thm_leg_measurement (time_of cs) k KS L1 L2) as (lm & E & T & L & HI & HL). exists lm. split; [reflexivity|]. split; [exact E|]. split; [exact T|]. split; [reflexivity|]. split; [reflexivity|]. split; [reflexivity|].
  intros l. destruct (HL l) as (o & O1 & O2 & O3 & _). exists o. split; [exact O1|]. split.
  - rewrite <- O2. cbn [k set_joint_state_velocity set_joint_state set_contact k_contacts]. clear -H1. destruct contacts as [|c0 [|c1 [|c2 [|c3 r]]]]; cbn in H1; try lia; destruct l; reflexivity.
  - rewrite O3. assert (forall j, (j < 12)%nat -> nth j (k_enc k) 0 = nth j (js_pos msg) 0) as Q.
    { intros j Hj. cbn [k set_joint_state_velocity set_joint_state set_contact k_enc]. rewrite <- (firstn_skipn 12 (js_pos msg)) at 2. rewrite app_nth1 by (rewrite firstn_length; lia). reflexivity. }
    clear -Q. unfold foot_pos. destruct l; cbn [leg_geom]; cbn; rewrite ?Q by lia; reflexivity.
Qed.
Lemma thm_leg_msg_short cs contacts msg q : (length contacts < 4 \/ length (js_pos msg) < 12 \/ length (js_vel msg) < 12)%nat -> MiniCheetahKinCallBack cs contacts msg q = Fail BadRead.
Proof.
  intros H. unfold MiniCheetahKinCallBack. destruct (le_lt_dec 4 (length contacts)); [rewrite (read_n_ok contacts) by lia|rewrite read_n_bad by lia; reflexivity]. cbn [bind].
  destruct (le_lt_dec 12 (length (js_pos msg))); [rewrite (read_n_ok (js_pos msg)) by lia|rewrite read_n_bad by lia; reflexivity]. cbn [bind]. rewrite read_n_bad by lia. reflexivity.
Qed.
(** stamps *)
Lemma thm_stamp_seconds s : 1000000000 * time_of s = IZR (1000000000 * sec s + nsec s).
Proof. unfold time_of. rewrite plus_IZR, mult_IZR. field. Qed.
