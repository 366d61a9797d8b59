(** Gyro filter: inputs that are never used, clear() racing with the filter thread, dead
    reckoning, idle iterations, calibration. *)
From Coq Require Import Reals ZArith List Bool Arith Lia Lra.
From Verif Require Import Res Vec3 Mat MatInv Psd Spec LieGroup RobotState Imu Propagation ImuFilter SpecGyro GyroThms GyroHist.
Import ListNotations.
Local Open Scope R_scope.

Lemma gf_run_cons g o os : gf_run g (o :: os) = (let* g := gf_step g o in gf_run g os). Proof. reflexivity. Qed.
Lemma gf_run_app : forall os1 os2 g, gf_run g (os1 ++ os2) = (let* g := gf_run g os1 in gf_run g os2).
Proof. induction os1 as [|o os1 IH]; intros; [reflexivity|]. cbn [app]. rewrite !gf_run_cons. destruct (gf_step g o); cbn [bind]; auto. Qed.
Lemma gyro_total g q : gyro_inv g -> gf_gyro g = Some q -> exists g', GyroPropagate g = Ok g' /\ gyro_inv g' /\ gf_gyro g' = Some (tl q).
Proof.
  intros I E. destruct (propagate_inv g I) as [A B]. destruct (GyroPropagate g) as [g'|er] eqn:Eg.
  - exists g'. split; [reflexivity|]. split; [apply (A g'); reflexivity|]. revert Eg. unfold GyroPropagate. rewrite E. cbn [of_opt bind]. destruct q as [|m q].
    + injection 1 as <-. exact E.
    + destruct (cadd _ _); cbn [bind]; [|discriminate]. destruct (cadd _ _); cbn [bind]; [|discriminate]. injection 1 as <-. reflexivity.
  - exfalso. revert Eg. unfold GyroPropagate. rewrite E. cbn [of_opt bind]. destruct q as [|m q]; [discriminate|].
    cbn [gf_set_prev gf_set_gyro gf_queues gf_x gf_P gf_Q gf_prev gf_cm gf_latest]. pose proof I as []. pose proof (psd_sq _ gi_P). pose proof (psd_sq _ gi_Q).
    destruct (vec6_dim (i_w m -v gf_prev g) vzero) as [V1 V2]. rewrite cadd_ok by congruence. cbn [bind]. rewrite cadd_ok by congruence. discriminate.
Qed.
Ltac same I := eapply inv_same; [exact I|..]; reflexivity.

(** ** SINGLE_IMU with gyro propagation: a sample that is too old blocks the rest *)
Lemma stale_blocks m : forall os g q qg, gyro_inv g -> gf_init g = true -> gf_cm g = SINGLE_IMU -> gf_pm g = GYRO -> gf_imu g = Some (m :: q) -> gf_gyro g = Some qg ->
  gf_thr g < gf_last g - i_t m -> (forall x, In x qg -> gf_thr g < i_t x - i_t m) ->
  (forall o, In o os -> match o with GRun | GImu _ => True | GGyro x => gf_thr g < i_t x - i_t m | _ => False end) ->
  exists g', gf_run g os = Ok g' /\ gf_out g' = gf_out g /\ hd_error (q_of (gf_imu g')) = Some m.
Proof.
  induction os as [|o os IH]; intros g q qg I Hi Hc Hp Ei Eg Hl Hq Ho.
  - exists g. rewrite Ei. auto.
  - rewrite gf_run_cons. pose proof (Ho o (or_introl eq_refl)) as H1. assert (forall o', In o' os -> match o' with GRun | GImu _ => True | GGyro x => gf_thr g < i_t x - i_t m | _ => False end) as H2 by (intros; apply Ho; right; auto).
    destruct o as [x|x| | | | | |]; try contradiction; cbn [gf_step].
    + rewrite Eg. cbn [of_opt bind]. change (gf_out g) with (gf_out (gf_set_gyro g (qg ++ [x]))). apply (IH _ q (qg ++ [x])); auto; [same I|]. intros y Hy. apply in_app_or in Hy. destruct Hy as [Hy|[<-|[]]]; auto.
    + rewrite Ei. cbn [of_opt bind]. change (gf_out g) with (gf_out (gf_set_imu g ((m :: q) ++ [x]))). apply (IH _ (q ++ [x]) qg); auto. same I.
    + unfold ImuFilter_RunOnce. rewrite Hi, Hp. destruct (gyro_total g qg I Eg) as (g1 & E1 & I1 & Eg1). rewrite E1. cbn [bind].
      destruct (gyro_prop_inv g g1 E1) as (A1 & A2 & A3 & A4 & A5 & A6 & A7 & A8 & (tg & A9 & A10 & A11 & A12) & A13).
      rewrite A5, Hc. assert (gf_thr g1 < gf_last g1 - i_t m) as Hl1.
      { rewrite A8. destruct tg as [|y [|]]; cbn in A10; [rewrite (A11 eq_refl); auto| |lia]. rewrite (A12 y eq_refl). apply Hq. rewrite Eg in A9. cbn in A9. rewrite A9. left; reflexivity. }
      unfold SingleImuCorrection. rewrite A1, Ei. cbn [of_opt bind]. destruct (Rle_dec _ _) as [Hx|_]; [lra|]. cbn [maybe_clear bind].
      destruct (IH g1 q (tl qg) I1) as (g' & B1 & B2 & B3); try congruence.
      * intros x Hx. rewrite A8. apply Hq. destruct qg; [contradiction|right; exact Hx].
      * intros o' Ho'. rewrite A8. apply H2. exact Ho'.
      * exists g'. split; [exact B1|]. split; [congruence|exact B3].
Qed.

Lemma no_gcfg_ok : gcfg_ok no_gcfg. Proof. split; discriminate. Qed.
Lemma thm_stale : forall os, (forall o, In o os -> match o with GRun | GImu _ => True | GGyro x => 10 <= i_t x | _ => False end) ->
  exists g, gf_run (gf_setup (ImuAngVelEKF_config no_gcfg) [AGyro; AImu]) ([GRun; GGyro (at_time 10); GRun; GImu (at_time 1)] ++ os) = Ok g /\ gf_out g = [].
Proof.
  intros os Ho. set (g0 := gf_setup _ _). assert (gyro_inv g0) as I0 by (apply setup_inv, make_inv, no_gcfg_ok).
  cbn [app]. rewrite gf_run_cons. set (g1 := gf_mode (gf_mode g0 GYRO SINGLE_IMU 1 0 false) GYRO SINGLE_IMU 1 0 true).
  assert (gf_step g0 GRun = Ok g1) as ->.
  { cbn [gf_step]. unfold ImuFilter_RunOnce. cbn [gf_init g0 gf_setup fold_left gf_add add_imu_correction add_gyro_propagate gf_mode gf_set_gyro gf_set_imu gf_queues gf_nimu Nat.eqb ImuAngVelEKF_config gf_make maybe_clear bind].
    unfold InitializeFilter. cbn. reflexivity. }
  cbn [bind]. rewrite gf_run_cons. cbn [gf_step]. change (gf_gyro g1) with (Some (@nil imu)). cbn [of_opt bind app]. rewrite gf_run_cons.
  set (g2 := gf_set_gyro g1 [at_time 10]). assert (gyro_inv g2) as I2 by same I0. cbn [gf_step]. unfold ImuFilter_RunOnce. change (gf_init g2) with true. change (gf_pm g2) with GYRO. cbn match.
  destruct (gyro_total g2 [at_time 10] I2 eq_refl) as (g3 & E3 & I3 & Eg3). rewrite E3. cbn [bind tl] in *.
  destruct (gyro_prop_inv g2 g3 E3) as (A1 & A2 & A3 & A4 & A5 & A6 & A7 & A8 & (tg & A9 & A10 & A11 & A12) & A13).
  assert (gf_last g3 = 10) as Hl. { rewrite Eg3 in A9. cbn in A9. rewrite app_nil_r in A9. rewrite (A12 (at_time 10)); auto. }
  rewrite A5. change (gf_cm g2) with SINGLE_IMU. cbn match. unfold SingleImuCorrection. rewrite A1. change (gf_imu g2) with (Some (@nil imu)). cbn [of_opt bind maybe_clear].
  rewrite gf_run_cons. cbn [gf_step]. rewrite A1. change (gf_imu g2) with (Some (@nil imu)). cbn [of_opt bind app].
  assert (gf_thr g3 = 3 / 100) as Ht by (rewrite A8; reflexivity).
  destruct (stale_blocks (at_time 1) os (gf_set_imu g3 [at_time 1]) [] []) as (g' & B1 & B2 & B3); auto; try (cbn [gf_set_imu gf_queues gf_init gf_cm gf_pm gf_gyro]; rewrite ?A7, ?A5, ?A6; auto; fail).
  - same I3.
  - cbn. rewrite Ht, Hl. lra.
  - intros x [].
  - intros o Hin. specialize (Ho o Hin). destruct o; auto. cbn. rewrite Ht. lra.
  - exists g'. split; [exact B1|]. rewrite B2. cbn. rewrite A4. reflexivity.
Qed.

(** ** Arrangements of sensors without output *)
Record quiet (g : gfilt) (ni na : nat) (cm : corr_method) : Prop := {
  qt_inv : gyro_inv g; qt_pm : gf_pm g = RANDOM_WALK; qt_out : gf_out g = []; qt_st : gf_static g = false; qt_size : exists z, gf_size g = Some z;
  qt_ni : gf_nimu g = ni; qt_na : gf_nav g = na; qt_cm : gf_init g = true -> gf_cm g = cm; qt_last : gf_last g = -1; qt_latest : gf_latest g = None }.
Lemma quiet_set g g' ni na cm : quiet g ni na cm -> gf_const g' = gf_const g -> gf_x g' = gf_x g -> gf_P g' = gf_P g ->
  gf_pm g' = gf_pm g -> gf_out g' = gf_out g -> gf_nimu g' = gf_nimu g -> gf_nav g' = gf_nav g -> gf_init g' = gf_init g -> gf_cm g' = gf_cm g -> gf_last g' = gf_last g -> gf_latest g' = gf_latest g ->
  quiet g' ni na cm.
Proof. intros [] C. intros. pose proof C as C'. unfold gf_const in C'. injection C' as ? ? ? ? ? ? ? ? ?. constructor; try congruence. eapply inv_same; eauto. destruct qt_size0 as [z Hz]. exists z. congruence. intros. rewrite H6. apply qt_cm0. congruence. Qed.
Lemma quiet_init g ni na cm : quiet g ni na cm -> gf_init g = false -> pick_method g = cm ->
  exists g', ImuFilter_RunOnce g false = Ok g' /\ quiet g' ni na cm /\ gf_init g' = true /\ gf_imu g' = gf_imu g /\ gf_imus g' = gf_imus g /\ gf_av g' = gf_av g.
Proof.
  intros [] Hi Hp. unfold ImuFilter_RunOnce. rewrite Hi. cbn [maybe_clear bind]. unfold InitializeFilter. cbn [gf_mode gf_size gf_vec gf_static]. destruct qt_size0 as [z Hz]. rewrite Hz, qt_st0. cbn [of_opt bind].
  rewrite andb_false_r. eexists. split; [reflexivity|]. split; [|cbn; auto]. constructor; cbn; auto. same qt_inv0. eauto.
Qed.
Lemma quiet_walk g ni na cm : quiet g ni na cm -> exists g', RandomWalkPropagate g = Ok g' /\ quiet g' ni na cm /\ gf_init g' = gf_init g /\ gf_imu g' = gf_imu g /\ gf_imus g' = gf_imus g /\ gf_av g' = gf_av g /\ gf_cm g' = gf_cm g.
Proof.
  intros Q. pose proof Q as []. destruct (walk_inv g qt_inv0) as (g1 & E & I & C). exists g1. split; [exact E|]. apply walk_prop_inv in E. destruct E as (P & _ & ->).
  split; [|cbn; auto 6]. constructor; cbn; auto.
Qed.
Lemma quiet_setup c l : gcfg_ok c -> q_static c <> Some true -> forall g, g = gf_setup (ImuAngVelEKF_config c) l -> (forall a, In a l -> a <> AGyro) -> forall cm, quiet g (gf_nimu g) (gf_nav g) cm /\ gf_init g = false.
Proof.
  intros Hc Hs g -> Hl cm. unfold gf_setup.
  assert (forall l g, (forall a, In a l -> a <> AGyro) -> quiet g (gf_nimu g) (gf_nav g) cm /\ gf_init g = false -> quiet (fold_left gf_add l g) (gf_nimu (fold_left gf_add l g)) (gf_nav (fold_left gf_add l g)) cm /\ gf_init (fold_left gf_add l g) = false) as H.
  { clear. induction l as [|a l IH]; intros g Hl [Q Hi]; [split; auto|]. cbn [fold_left]. apply IH; [intros; apply Hl; right; auto|]. pose proof Q as []. split.
    - destruct a; cbn [gf_add]; [exfalso; apply (Hl AGyro); [left|]; auto| |].
      + unfold add_imu_correction. destruct (Nat.eqb _ _); constructor; cbn; auto; try (same qt_inv0); intros; congruence.
      + constructor; cbn; auto; try (same qt_inv0); intros; congruence.
    - destruct a; cbn [gf_add]; [exfalso; apply (Hl AGyro); [left|]; auto| |]; [|cbn; auto]. unfold add_imu_correction. destruct (Nat.eqb _ _); cbn; auto. }
  apply H; [exact Hl|]. split; [|reflexivity]. constructor; cbn; auto; try discriminate; [apply make_inv; auto| |eauto]. destruct (q_static c) as [[]|]; cbn; auto; congruence.
Qed.

Lemma thm_single_no_gyro c : gcfg_ok c -> q_static c <> Some true -> forall os, (forall o, In o os -> match o with GRun => True | GImu x => -1 < i_t x | _ => False end) ->
  exists g, gf_run (gf_setup (ImuAngVelEKF_config c) [AImu]) os = Ok g /\ gf_out g = [].
Proof.
  intros Hc Hs. destruct (quiet_setup c [AImu] Hc Hs _ eq_refl ltac:(intros a [<-|[]]; discriminate) SINGLE_IMU) as [Q Hi].
  assert (exists q, gf_imu (gf_setup (ImuAngVelEKF_config c) [AImu]) = Some q /\ forall x, In x q -> -1 < i_t x) as Hq by (exists []; split; [reflexivity|intros x []]).
  change (gf_nimu (gf_setup (ImuAngVelEKF_config c) [AImu])) with 1%nat in Q. change (gf_nav (gf_setup (ImuAngVelEKF_config c) [AImu])) with 0%nat in Q.
  clear Hi. revert Q Hq. generalize (gf_setup (ImuAngVelEKF_config c) [AImu]) as g. intros g Q Hq os. revert g Q Hq.
  induction os as [|o os IH]; intros g Q (q & Eq & Hq) Ho; [exists g; split; [reflexivity|apply Q]|].
  rewrite gf_run_cons. pose proof (Ho o (or_introl eq_refl)) as H1. assert (forall o', In o' os -> match o' with GRun => True | GImu x => -1 < i_t x | _ => False end) as H2 by (intros; apply Ho; right; auto).
  destruct o; try contradiction; cbn [gf_step].
  - rewrite Eq. cbn [of_opt bind]. apply IH; auto. eapply quiet_set; [exact Q|..]; reflexivity. eexists. split; [reflexivity|]. intros x Hx. apply in_app_or in Hx. destruct Hx as [Hx|[<-|[]]]; auto.
  - destruct (gf_init g) eqn:Hi.
    + unfold ImuFilter_RunOnce. rewrite Hi, (qt_pm _ _ _ _ Q). destruct (quiet_walk g _ _ _ Q) as (g1 & E1 & Q1 & B1 & B2 & B3 & B4 & B5). rewrite E1. cbn [bind].
      rewrite B5, (qt_cm _ _ _ _ Q Hi). unfold SingleImuCorrection. rewrite B2, Eq. cbn [of_opt bind].
      assert (exists g', gf_run g1 os = Ok g' /\ gf_out g' = []) as IH' by (apply IH; auto; exists q; split; [congruence|auto]).
      destruct q as [|m q]; [exact IH'|]. destruct (Rle_dec _ _); [|exact IH']. destruct (Rle_dec _ _) as [Hx|_]; [|exact IH'].
      exfalso. rewrite (qt_last _ _ _ _ Q1) in Hx. specialize (Hq m (or_introl eq_refl)). lra.
    + destruct (quiet_init g _ _ _ Q Hi) as (g1 & E1 & Q1 & B1 & B2 & B3 & B4).
      { unfold pick_method. rewrite (qt_ni _ _ _ _ Q), (qt_na _ _ _ _ Q). reflexivity. }
      rewrite E1. cbn [bind]. apply IH; auto. exists q. split; [congruence|auto].
Qed.
Lemma thm_av_no_imu c : gcfg_ok c -> q_static c <> Some true -> forall os, (forall o, In o os -> match o with GRun | GAv _ => True | _ => False end) ->
  exists g, gf_run (gf_setup (ImuAngVelEKF_config c) [AAv]) os = Ok g /\ gf_out g = [].
Proof.
  intros Hc Hs. destruct (quiet_setup c [AAv] Hc Hs _ eq_refl ltac:(intros a [<-|[]]; discriminate) ANG_VEL) as [Q Hi].
  assert (exists q, gf_av (gf_setup (ImuAngVelEKF_config c) [AAv]) = Some q) as Hq by (exists []; reflexivity).
  change (gf_nimu (gf_setup (ImuAngVelEKF_config c) [AAv])) with 0%nat in Q. change (gf_nav (gf_setup (ImuAngVelEKF_config c) [AAv])) with 1%nat in Q.
  clear Hi. revert Q Hq. generalize (gf_setup (ImuAngVelEKF_config c) [AAv]) as g. intros g Q Hq os. revert g Q Hq.
  induction os as [|o os IH]; intros g Q (q & Eq) Ho; [exists g; split; [reflexivity|apply Q]|].
  rewrite gf_run_cons. pose proof (Ho o (or_introl eq_refl)) as H1. assert (forall o', In o' os -> match o' with GRun | GAv _ => True | _ => False end) as H2 by (intros; apply Ho; right; auto).
  destruct o; try contradiction; cbn [gf_step].
  - rewrite Eq. cbn [of_opt bind]. apply IH; auto. eapply quiet_set; [exact Q|..]; reflexivity. eexists. reflexivity.
  - destruct (gf_init g) eqn:Hi.
    + unfold ImuFilter_RunOnce. rewrite Hi, (qt_pm _ _ _ _ Q). destruct (quiet_walk g _ _ _ Q) as (g1 & E1 & Q1 & B1 & B2 & B3 & B4 & B5). rewrite E1. cbn [bind].
      rewrite B5, (qt_cm _ _ _ _ Q Hi). unfold AngVelCorrection. rewrite B4, Eq. cbn [of_opt bind].
      assert (exists g', gf_run g1 os = Ok g' /\ gf_out g' = []) as IH' by (apply IH; auto; exists q; congruence).
      destruct q as [|a q]; [exact IH'|]. cbn [maybe_clear bind]. rewrite (qt_latest _ _ _ _ Q1). cbn [bind]. rewrite B4, Eq. cbn [of_opt bind pop].
      apply IH; auto. eapply quiet_set; [exact Q1|..]; reflexivity. eexists; reflexivity.
    + destruct (quiet_init g _ _ _ Q Hi) as (g1 & E1 & Q1 & B1 & B2 & B3 & B4).
      { unfold pick_method. rewrite (qt_ni _ _ _ _ Q), (qt_na _ _ _ _ Q). reflexivity. }
      rewrite E1. cbn [bind]. apply IH; auto. exists q. congruence.
Qed.
Lemma thm_multi_first_ignored c : gcfg_ok c -> q_static c <> Some true -> forall os, (forall o, In o os -> match o with GRun | GImu _ => True | _ => False end) ->
  exists g, gf_run (gf_setup (ImuAngVelEKF_config c) [AImu; AImu]) os = Ok g /\ gf_out g = [].
Proof.
  intros Hc Hs. destruct (quiet_setup c [AImu; AImu] Hc Hs _ eq_refl ltac:(intros a [<-|[<-|[]]]; discriminate) MULTI_IMU) as [Q Hi].
  assert ((exists q, gf_imu (gf_setup (ImuAngVelEKF_config c) [AImu; AImu]) = Some q) /\ gf_imus (gf_setup (ImuAngVelEKF_config c) [AImu; AImu]) = [[]]) as Hq by (split; [exists []|]; reflexivity).
  change (gf_nimu (gf_setup (ImuAngVelEKF_config c) [AImu; AImu])) with 2%nat in Q. change (gf_nav (gf_setup (ImuAngVelEKF_config c) [AImu; AImu])) with 0%nat in Q.
  clear Hi. revert Q Hq. generalize (gf_setup (ImuAngVelEKF_config c) [AImu; AImu]) as g. intros g Q Hq os. revert g Q Hq.
  induction os as [|o os IH]; intros g Q ((q & Eq) & En) Ho; [exists g; split; [reflexivity|apply Q]|].
  rewrite gf_run_cons. pose proof (Ho o (or_introl eq_refl)) as H1. assert (forall o', In o' os -> match o' with GRun | GImu _ => True | _ => False end) as H2 by (intros; apply Ho; right; auto).
  destruct o; try contradiction; cbn [gf_step].
  - rewrite Eq. cbn [of_opt bind]. apply IH; auto. eapply quiet_set; [exact Q|..]; reflexivity. split; [eexists; reflexivity|exact En].
  - destruct (gf_init g) eqn:Hi.
    + unfold ImuFilter_RunOnce. rewrite Hi, (qt_pm _ _ _ _ Q). destruct (quiet_walk g _ _ _ Q) as (g1 & E1 & Q1 & B1 & B2 & B3 & B4 & B5). rewrite E1. cbn [bind].
      rewrite B5, (qt_cm _ _ _ _ Q Hi). cbn [maybe_clear bind]. unfold MultiImuCorrection. rewrite B3, En. cbn [multi_loop app bind].
      apply IH; auto. eapply quiet_set; [exact Q1|..]; reflexivity. split; [exists q; cbn; congruence|reflexivity].
    + destruct (quiet_init g _ _ _ Q Hi) as (g1 & E1 & Q1 & B1 & B2 & B3 & B4).
      { unfold pick_method. rewrite (qt_ni _ _ _ _ Q), (qt_na _ _ _ _ Q). reflexivity. }
      rewrite E1. cbn [bind]. apply IH; auto. split; [exists q|]; congruence.
Qed.
(** the encoder-only arrangement with static calibration reads a null buffer *)
Lemma thm_av_static c z : q_static c = Some true -> q_size c = Some z -> (z <> 0)%Z -> gf_run (gf_setup (ImuAngVelEKF_config c) [AAv]) [GRun] = Fail NullDeref.
Proof.
  intros A B C. unfold gf_run. cbn [foldM gf_step]. unfold ImuFilter_RunOnce. cbn [gf_setup fold_left gf_add add_ang_vel_correction gf_set_av gf_mode gf_queues ImuAngVelEKF_config gf_make gf_init maybe_clear bind].
  unfold InitializeFilter. cbn. rewrite A, B. cbn. unfold vec_short. cbn. destruct z; try congruence; reflexivity.
Qed.
(** an object made with the first constructor reads its calibration length before it is set *)
Lemma thm_buffers_ctor c qi qa : gf_run (ImuAngVelEKF_buffers qi qa c) [GRun] = Fail BadRead.
Proof. reflexivity. Qed.
