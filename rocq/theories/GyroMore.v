(** Gyro filter: repeated results, clear() racing with the filter thread, dead reckoning,
    idle iterations, calibration. *)
From Coq Require Import Reals ZArith List Bool Arith Lia Lra.
From Verif Require Import Res Vec3 Mat MatInv Psd Spec LieGroup RobotState Imu Propagation ImuFilter SpecGyro GyroThms GyroHist GyroEx.
Import ListNotations.
Local Open Scope R_scope.

(** ** MULTI_IMU: one result for two samples of different sensors *)
Lemma thm_multi_dup : exists g f, gf_run (gf_setup (ImuAngVelEKF_config no_gcfg) [AGyro; AImu; AImu; AImu])
  [GRun; GGyro (at_time 10); GRun; GImuN 0 (at_time 10); GImuN 1 (at_time 1); GRun] = Ok g /\ gf_out g = [f; f] /\ i_t f = 10.
Proof.
  set (g0 := gf_setup _ _). assert (gyro_inv g0) as I0 by (apply setup_inv, make_inv, no_gcfg_ok).
  set (g1 := gf_mode (gf_mode g0 GYRO MULTI_IMU 3 0 false) GYRO MULTI_IMU 3 0 true). rewrite gf_run_cons.
  assert (gf_step g0 GRun = Ok g1) as -> by reflexivity. cbn [bind]. rewrite gf_run_cons. cbn [gf_step]. change (gf_gyro g1) with (Some (@nil imu)). cbn [of_opt bind app]. rewrite gf_run_cons.
  set (g2 := gf_set_gyro g1 [at_time 10]). assert (gyro_inv g2) as I2 by same I0. cbn [gf_step]. unfold ImuFilter_RunOnce at 1. change (gf_init g2) with true. change (gf_pm g2) with GYRO. cbn match.
  destruct (gyro_total g2 [at_time 10] I2 eq_refl) as (g3 & E3 & I3 & Eg3). rewrite E3. cbn [bind tl] in *.
  destruct (gyro_prop_inv g2 g3 E3) as (A1 & A2 & A3 & A4 & A5 & A6 & A7 & A8 & (tg & A9 & A10 & A11 & A12) & A13).
  assert (gf_last g3 = 10) as Hl. { rewrite Eg3 in A9. cbn in A9. rewrite app_nil_r in A9. rewrite (A12 (at_time 10)); auto. }
  rewrite A5. change (gf_cm g2) with MULTI_IMU. cbn match. cbn [maybe_clear bind]. unfold MultiImuCorrection at 1. rewrite A2. change (gf_imus g2) with [@nil imu; []].
  cbn [multi_loop app bind]. rewrite !gf_run_cons. cbn [gf_step bind gf_set_imus gf_queues gf_imus push_nth app]. rewrite !gf_run_cons. cbn [gf_step bind gf_set_imus gf_queues gf_imus push_nth app]. rewrite gf_run_cons.
  match goal with |- context [gf_step ?x GRun] => set (g4 := x) end. assert (gyro_inv g4) as I4 by same I3.
  cbn [gf_step]. unfold ImuFilter_RunOnce. change (gf_init g4) with (gf_init g3). change (gf_pm g4) with (gf_pm g3). rewrite A7, A6. change (gf_init g2) with true. change (gf_pm g2) with GYRO. cbn match.
  destruct (gyro_total g4 [] I4) as (g5 & E5 & I5 & Eg5); [cbn; exact Eg3|]. assert (g5 = g4) as ->.
  { unfold GyroPropagate in E5. change (gf_gyro g4) with (gf_gyro g3) in E5. rewrite Eg3 in E5. cbn in E5. congruence. }
  rewrite E5. cbn [bind]. change (gf_cm g4) with (gf_cm g3). rewrite A5. change (gf_cm g2) with MULTI_IMU. cbn match. cbn [maybe_clear bind]. unfold MultiImuCorrection.
  change (gf_imus g4) with [[at_time 10]; [at_time 1]]. cbn [multi_loop app].
  assert (gf_last g4 = 10) as Hl4 by (rewrite <- Hl; reflexivity). assert (gf_thr g4 = 3 / 100) as Ht by (change (gf_thr g4) with (gf_thr g3); rewrite A8; reflexivity).
  assert (in_time g4 (i_t (at_time 10)) = true) as ->. { unfold in_time. rewrite Hl4, Ht. destruct (Req_EM_T _ _); auto. destruct (Rle_dec _ _) as [|Hx]; auto. exfalso. apply Hx. cbn. lra. }
  destruct (correct_imu_ok g4 (at_time 10) I4) as (x & P & E & I' & _). rewrite E. cbn [bind].
  match goal with |- context [in_time ?x (i_t (at_time 1))] => assert (in_time x (i_t (at_time 1)) = false) as -> end.
  { unfold in_time. cbn [gf_set_out gf_set_est gf_last gf_thr]. rewrite Hl4, Ht. destruct (Req_EM_T _ _); [lra|]. destruct (Rle_dec _ _) as [Hx|]; auto. cbn in Hx. lra. }
  cbn [bind]. unfold gf_run. cbn [foldM]. eexists _, _. split; [reflexivity|]. cbn. rewrite A4. cbn. split; reflexivity.
Qed.

(** ** clear() *)
Lemma thm_clear_race m : gf_run (gf_setup (ImuAngVelEKF_config no_gcfg) [AImu; AAv]) [GRun; GImu m; GRunClr] = Fail EmptyQueue.
Proof.
  set (g0 := gf_setup _ _). assert (gyro_inv g0) as I0 by (apply setup_inv, make_inv, no_gcfg_ok).
  set (g1 := gf_mode (gf_mode g0 RANDOM_WALK SINGLE_IMU_PLUS_ANG_VEL 1 1 false) RANDOM_WALK SINGLE_IMU_PLUS_ANG_VEL 1 1 true). rewrite gf_run_cons.
  assert (gf_step g0 GRun = Ok g1) as -> by reflexivity. cbn [bind]. rewrite gf_run_cons. cbn [gf_step]. change (gf_imu g1) with (Some (@nil imu)). cbn [of_opt bind app]. rewrite gf_run_cons.
  set (g2 := gf_set_imu g1 [m]). assert (gyro_inv g2) as I2 by same I0. cbn [gf_step]. unfold ImuFilter_RunOnce. change (gf_init g2) with true. change (gf_pm g2) with RANDOM_WALK. cbn match.
  destruct (walk_inv g2 I2) as (g3 & E3 & I3 & _). rewrite E3. cbn [bind]. apply walk_prop_inv in E3. destruct E3 as (P & _ & ->).
  change (gf_cm (gf_set_est g2 (gf_x g2) P)) with SINGLE_IMU_PLUS_ANG_VEL. cbn match. unfold SingleImuAngVelCorrection.
  cbn [gf_set_est gf_imu gf_av g2 gf_set_imu gf_queues g1 gf_mode g0 gf_setup fold_left gf_add add_imu_correction add_ang_vel_correction Nat.eqb gf_nimu ImuAngVelEKF_config gf_make gf_set_av of_opt bind hd_error maybe_clear ImuFilter_clear].
  set (g4 := gf_set_out _ _). set (g5 := gf_set_prev g4 _ _ _). assert (gyro_inv g5) as I5 by same I3.
  destruct (in_time g5 (i_t m)).
  - destruct (correct_imu_ok g5 m I5) as (x & P' & E & _). rewrite E. reflexivity.
  - reflexivity.
Qed.
Lemma thm_clear_null c : gf_run (gf_setup (ImuAngVelEKF_config c) [AImu]) [GClear] = Fail NullDeref.
Proof. reflexivity. Qed.
Lemma thm_clear_between g qi qa : gf_imu g = Some qi -> gf_av g = Some qa -> exists g', gf_step g GClear = Ok g' /\ gf_imu g' = Some [] /\ gf_av g' = Some [] /\ gf_out g' = [] /\ gf_x g' = gf_x g /\ gf_P g' = gf_P g.
Proof. intros A B. cbn [gf_step]. unfold ImuFilter_clear. rewrite A, B. eexists. split; [reflexivity|]. cbn. auto 6. Qed.

(** ** dead reckoning: gyro samples only *)
Lemma multi_idle : forall todo g done, (forall q, In q todo -> q = []) -> multi_loop g None done todo = Ok (gf_set_imus g (done ++ todo)).
Proof.
  induction todo as [|q todo IH]; intros g done H; cbn [multi_loop]; [rewrite app_nil_r; reflexivity|]. rewrite (H q (or_introl eq_refl)). rewrite IH by (intros; apply H; right; auto). rewrite <- app_assoc. reflexivity.
Qed.
Lemma set_imus_same g : gf_set_imus g (gf_imus g) = g. Proof. destruct g; reflexivity. Qed.
Lemma corr_idle g g' : q_of (gf_imu g) = [] -> q_of (gf_av g) = [] -> (forall q, In q (gf_imus g) -> q = []) ->
  match gf_cm g with
    | SINGLE_IMU_PLUS_ANG_VEL => SingleImuAngVelCorrection g false
    | SINGLE_IMU => SingleImuCorrection g false
    | MULTI_IMU => let* g := maybe_clear false g in MultiImuCorrection g
    | ANG_VEL => AngVelCorrection g false
    | OTHER_METHOD => maybe_clear false g
    end = Ok g' -> g' = g.
Proof.
  intros A B C. destruct (gf_cm g).
  - unfold SingleImuAngVelCorrection. destruct (gf_imu g) as [qi|]; cbn [of_opt bind]; [|discriminate]. destruct (gf_av g) as [qa|]; cbn [of_opt bind]; [|discriminate]. cbn in A, B. subst. cbn. congruence.
  - unfold SingleImuCorrection. destruct (gf_imu g) as [qi|]; cbn [of_opt bind]; [|discriminate]. cbn in A. subst. cbn. congruence.
  - cbn [maybe_clear bind]. unfold MultiImuCorrection. rewrite multi_idle by exact C. cbn [app]. rewrite set_imus_same. congruence.
  - unfold AngVelCorrection. destruct (gf_av g) as [qi|]; cbn [of_opt bind]; [|discriminate]. cbn in B. subst. cbn. congruence.
  - cbn. congruence.
Qed.
Lemma vec6_ent a b i : (i < 6)%nat -> ent (vec6 a b) i 0 = if Nat.ltb i 3 then vget a i else vget b (i - 3).
Proof. intros. unfold vec6. rewrite ent_mk by lia. reflexivity. Qed.
Lemma head_vec6 a b : head3 (vec6 a b) = a.
Proof. unfold head3, getV3, vmk. cbn [Nat.add]. rewrite !vec6_ent by lia. destruct a; reflexivity. Qed.
Lemma tail_vec6 a b : tail3 (vec6 a b) = b.
Proof. unfold tail3, getV3, vmk. cbn [Nat.add]. rewrite !vec6_ent by lia. destruct b; reflexivity. Qed.
Lemma vec6_0 : vec6 vzero vzero = mO 6 1.
Proof. apply mat_ext; [reflexivity|reflexivity|]. intros i j Hi Hj. change (i < 6)%nat in Hi. change (j < 1)%nat in Hj. assert (j = 0)%nat as -> by lia. rewrite vec6_ent by lia. rewrite ent_O. destruct i as [|[|[|[|[|[|i]]]]]]; try lia; reflexivity. Qed.
Lemma vec6_add a b : vec6 a vzero +M vec6 b vzero = vec6 (a +v b) vzero.
Proof. apply mat_ext; [reflexivity|reflexivity|]. intros i j Hi Hj. change (i < 6)%nat in Hi. change (j < 1)%nat in Hj. assert (j = 0)%nat as -> by lia. rewrite ent_plus by reflexivity. rewrite !vec6_ent by lia. destruct a, b. destruct i as [|[|[|[|[|[|i]]]]]]; try lia; cbn; ring. Qed.
Lemma mplus_O A n m : nr A = n -> nc A = m -> A +M mO n m = A.
Proof. intros H1 H2. apply mat_ext; [mdim|mdim|]. intros. rewrite ent_plus, ent_O by mdim. ring. Qed.
Lemma vsub_self a : a -v a = vzero. Proof. destruct a; apply vsub_diag. Qed.
Lemma reckon_nil g : gyro_inv g -> reckon g g [].
Proof.
  intros I. pose proof I as []. pose proof (psd_sq _ gi_P). pose proof (psd_sq _ gi_Q). constructor; cbn; auto; try congruence.
  - rewrite vsub_self, vec6_0. symmetry. apply mplus_O; auto.
  - apply mat_ext; [mdim|mdim|]. intros. rewrite ent_plus by mdim. rewrite ent_scl. try change (INR 0) with 0. ring.
Qed.
Lemma last_app {A} (l : list A) x d : last (l ++ [x]) d = x.
Proof. induction l as [|a l IH]; cbn; auto. destruct (l ++ [x]) eqn:E; auto. destruct l; discriminate. Qed.
Lemma reckon_snoc g g1 g2 us m q : gyro_inv g -> gyro_inv g1 -> reckon g g1 us -> gf_gyro g1 = Some (m :: q) -> GyroPropagate g1 = Ok g2 -> reckon g g2 (us ++ [m]).
Proof.
  intros I I1 [Kx KP Kprev KQ Kout Klast] Eg. unfold GyroPropagate. rewrite Eg. cbn [of_opt bind gf_set_gyro gf_queues gf_prev gf_x gf_P gf_Q gf_set_prev gf_cm gf_latest].
  pose proof I1 as []. pose proof I as []. pose proof (psd_sq _ gi_P). pose proof (psd_sq _ gi_Q). pose proof (psd_sq _ gi_P0). pose proof (psd_sq _ gi_Q0).
  assert (forall a, nr (vec6 a vzero) = 6%nat) as V1 by reflexivity. assert (forall a, nc (vec6 a vzero) = 1%nat) as V2 by reflexivity.
  rewrite cadd_ok by (rewrite ?V1, ?V2; congruence). cbn [bind]. rewrite cadd_ok by congruence. cbn [bind]. injection 1 as <-.
  constructor; cbn [gf_set_est gf_x gf_P gf_Q gf_out gf_prev gf_set_prev gf_set_gyro gf_queues gf_last]; auto.
  - rewrite Kx, Kprev. rewrite map_app. cbn [map]. rewrite last_app. set (w := last _ _). rewrite mplus_comm by mdim. rewrite <- mplus_assoc by mdim. rewrite vec6_add. f_equal. f_equal. generalize (i_w m) (gf_prev g) w. intros a b c. ring3.
  - rewrite KP, KQ. rewrite app_length. cbn [length]. rewrite plus_INR. cbn [INR]. apply mat_ext; [mdim|mdim|]. intros. rewrite !ent_plus by mdim. rewrite !ent_scl. ring.
  - rewrite map_app. cbn [map]. rewrite last_app. reflexivity.
  - intros _. rewrite last_app. reflexivity.
Qed.
Lemma thm_reckon : forall os g g', gyro_inv g -> no_corr g -> (forall o, In o os -> match o with GRun | GGyro _ => True | _ => False end) -> gf_run g os = Ok g' ->
  gyro_inv g' /\ no_corr g' /\ exists us, q_of (gf_gyro g) ++ g_gyros os = us ++ q_of (gf_gyro g') /\ reckon g g' us.
Proof.
  intros os. induction os as [|o os IH] using rev_ind; intros g g' I N Ho.
  - injection 1 as <-. split; [auto|]. split; [auto|]. exists []. split; [apply app_nil_r|]. apply reckon_nil; auto.
  - rewrite gf_run_app. destruct (gf_run g os) as [g1|] eqn:E1; cbn [bind]; [|discriminate].
    destruct (IH g g1 I N) as (I1 & N1 & us & Hus & Rk); [intros; apply Ho, in_or_app; auto|exact E1|].
    assert (match o with GRun | GGyro _ => True | _ => False end) as Hoo by (apply Ho, in_or_app; right; left; reflexivity).
    unfold gf_run. cbn [foldM]. destruct (gf_step g1 o) as [g2|] eqn:E2; cbn [bind]; [|discriminate]. intros E3. injection E3 as <-. unfold g_gyros in *. rewrite flat_map_app, app_assoc, Hus.
    destruct o; try contradiction; cbn [gf_step] in E2.
    + destruct (gf_gyro g1) as [q|] eqn:Eq; cbn [of_opt bind] in E2; [|discriminate]. injection E2 as <-. split; [same I1|]. split; [exact N1|]. exists us. split; [cbn; rewrite <- app_assoc; reflexivity|]. destruct Rk; constructor; auto.
    + destruct N1 as (N1 & N2 & N3 & N4 & N5). unfold ImuFilter_RunOnce in E2. rewrite N5, N4 in E2. destruct (GyroPropagate g1) as [g3|] eqn:Eg; cbn [bind] in E2; [|discriminate].
      destruct (gyro_prop_inv g1 g3 Eg) as (A1 & A2 & A3 & A4 & A5 & A6 & A7 & A8 & (tg & A9 & A10 & A11 & A12) & A13).
      assert (g2 = g3) as -> by (apply (corr_idle g3 g2); [congruence|congruence|rewrite A2; exact N3|exact E2]).
      split; [apply (proj1 (propagate_inv g1 I1)); exact Eg|]. split; [repeat split; try congruence; rewrite A2; exact N3|].
      cbn [flat_map]. rewrite app_nil_r. destruct tg as [|m [|]]; cbn in A10; [| |lia].
      * exists us. split; [rewrite A9; reflexivity|]. rewrite (A11 eq_refl). exact Rk.
      * exists (us ++ [m]). split; [rewrite A9, <- app_assoc; reflexivity|]. destruct (gf_gyro g1) as [q|] eqn:Eq; [|unfold GyroPropagate in Eg; rewrite Eq in Eg; discriminate].
        cbn in A9. destruct q as [|m' q]; [discriminate|]. cbn in A9. injection A9 as -> _. eapply reckon_snoc; eauto.
Qed.

(** ** idle iterations *)
Lemma thm_idle_gyro g g' n : gf_init g = true -> gf_pm g = GYRO -> q_of (gf_gyro g) = [] -> q_of (gf_imu g) = [] -> q_of (gf_av g) = [] -> (forall q, In q (gf_imus g) -> q = []) ->
  gf_run g (repeat GRun n) = Ok g' -> g' = g.
Proof.
  intros A B C D E F. induction n as [|n IH]; [cbn; congruence|]. cbn [repeat]. rewrite gf_run_cons. cbn [gf_step]. destruct (ImuFilter_RunOnce g false) as [g1|] eqn:E1; cbn [bind]; [|discriminate].
  enough (g1 = g) as -> by exact IH. unfold ImuFilter_RunOnce in E1. rewrite A, B in E1. destruct (GyroPropagate g) as [g2|] eqn:E2; cbn [bind] in E1; [|discriminate].
  unfold GyroPropagate in E2. destruct (gf_gyro g) as [q|] eqn:Eq; cbn [of_opt bind] in E2; [|discriminate]. cbn in C. subst q. injection E2 as <-. apply corr_idle in E1; auto.
Qed.
Lemma thm_idle_walk g g' n : gyro_inv g -> gf_init g = true -> gf_pm g = RANDOM_WALK -> q_of (gf_imu g) = [] -> q_of (gf_av g) = [] -> (forall q, In q (gf_imus g) -> q = []) ->
  gf_run g (repeat GRun n) = Ok g' -> g' = gf_set_est g (gf_x g) (gf_P g +M INR n *S gf_Q g).
Proof.
  intros I0 A B D E F. revert g I0 A B D E F. induction n as [|n IH]; intros g I0 A B D E F; pose proof I0 as []; pose proof (psd_sq _ gi_P); pose proof (psd_sq _ gi_Q).
  - intros [= <-]. replace (gf_P g +M INR 0 *S gf_Q g) with (gf_P g); [destruct g; reflexivity|]. apply mat_ext; [mdim|mdim|]. intros. rewrite ent_plus by mdim. rewrite ent_scl. cbn. ring.
  - cbn [repeat]. rewrite gf_run_cons. cbn [gf_step]. destruct (ImuFilter_RunOnce g false) as [g1|] eqn:E1; cbn [bind]; [|discriminate].
    unfold ImuFilter_RunOnce in E1. rewrite A, B in E1. destruct (walk_inv g I0) as (g2 & E2 & I2 & _). rewrite E2 in E1. cbn [bind] in E1. apply walk_prop_inv in E2. destruct E2 as (P & EP & ->).
    rewrite cadd_ok in EP by congruence. injection EP as <-. apply corr_idle in E1; auto. subst g1. intros E1. apply IH in E1; auto. rewrite E1.
    cbn [gf_set_est gf_x gf_P gf_Q]. unfold gf_set_est. cbn. f_equal. apply mat_ext; [mdim|mdim|]. intros. rewrite !ent_plus by mdim. rewrite !ent_scl. change (match n with O => 1 | S _ => INR n + 1 end) with (INR (S n)). rewrite S_INR. ring.
Qed.

(** ** calibration *)
Definition fl (l : list V3) : V3 := fold_left vadd l vzero.
Lemma fold_left_vadd : forall l a, fold_left vadd l a = a +v fold_right vadd vzero l.
Proof. induction l as [|x l IH]; intros a; cbn; [ring3|]. rewrite IH. generalize (fold_right vadd vzero l). intros. ring3. Qed.
Lemma average_mean l : l <> [] -> average l = Ok (mean l).
Proof. intros H. unfold average, mean. destruct l as [|x l]; [congruence|]. f_equal. rewrite fold_left_vadd. unfold Rdiv. rewrite Rmult_1_l. f_equal. ring3. Qed.
(** while the filter is calibrating *)
Record calib (g : gfilt) (N : nat) (all : list imu) : Prop := {
  ca_init : gf_init g = false; ca_st : gf_static g = true; ca_size : gf_size g = Some (Z.of_nat N);
  ca_ex : exists us, all = us ++ q_of (gf_imu g) /\ gf_vec g = map i_w us /\ (length us <= N)%nat;
  ca_imu : exists q, gf_imu g = Some q }.
Lemma vec_short_iff n N : vec_short n (Z.of_nat N) = Nat.ltb n N.
Proof. unfold vec_short. destruct (Z.ltb_spec (Z.of_nat N) 0); [lia|]. cbn [orb]. destruct (Z.ltb_spec (Z.of_nat n) (Z.of_nat N)), (Nat.ltb_spec n N); auto; lia. Qed.
Lemma calib_run g g' N all : calib g N all -> ImuFilter_RunOnce g false = Ok g' ->
  (gf_init g' = false /\ calib g' N all) \/
  (gf_init g' = true /\ (N <= length all)%nat /\ (0 < N)%nat /\ head3 (gf_x g') = vzero /\ tail3 (gf_x g') = mean (map i_w (firstn N all))).
Proof.
  intros [Hi Hs Hz (us & Hus & Hv & Hn) (q & Eq)]. unfold ImuFilter_RunOnce. rewrite Hi. cbn [maybe_clear bind]. set (g1 := gf_mode g _ _ _ _ _).
  unfold InitializeFilter. change (gf_size g1) with (gf_size g). change (gf_vec g1) with (gf_vec g). change (gf_static g1) with (gf_static g). change (gf_imu g1) with (gf_imu g).
  rewrite Hz. cbn [of_opt bind]. rewrite Hv, Hs, map_length, vec_short_iff, Eq, andb_true_r. cbn [of_opt bind]. rewrite Eq in Hus. cbn in Hus. destruct (Nat.ltb_spec (length us) N) as [Hl|Hl].
  - intros E. left. destruct q as [|m q].
    + injection E as <-. split; [exact Hi|]. constructor; cbn; auto; [|eauto]. exists us. rewrite Eq. auto.
    + assert (forall g2, gf_static g2 = true -> gf_init g2 = false -> gf_size g2 = Some (Z.of_nat N) -> gf_imu g2 = Some q -> gf_vec g2 = map i_w us ++ [i_w m] -> gf_init g2 = false /\ calib g2 N all) as K.
      { intros g2 K1 K2 K3 K4 K5. split; [exact K2|]. constructor; auto; [|eauto]. exists (us ++ [m]). split; [rewrite K4, Hus, <- app_assoc; reflexivity|]. split; [rewrite K5, map_app; reflexivity|rewrite app_length; cbn; lia]. }
      cbn [gf_set_vec gf_set_imu gf_queues gf_pm g1 gf_mode gf_gyro] in E. destruct (gf_pm g).
      * destruct (gf_gyro g) as [[|m0 qg]|]; cbn [of_opt bind] in E; [| |discriminate]; injection E as <-; apply K; auto.
      * injection E as <-. apply K; auto.
  - assert (length us = N) as HN by lia. destruct us as [|u us']; [cbn; discriminate|]. rewrite average_mean by discriminate. cbn [bind]. set (us := u :: us') in *.
    set (g2 := gf_set_est g1 _ _). intros E. right.
    assert (gf_init g' = true /\ gf_x g' = vec6 vzero (mean (map i_w us))) as [A1 A2].
    { revert E. change (gf_pm g2) with (gf_pm g). change (gf_gyro g2) with (gf_gyro g).
      destruct (match gf_pm g with GYRO => _ | RANDOM_WALK => _ end) as [g3|] eqn:E3; cbn [bind]; [|discriminate].
      assert (gf_x g3 = gf_x g2) as X3. { destruct (gf_pm g); [destruct (gf_gyro g); cbn [of_opt bind] in E3; [|discriminate]|]; injection E3 as <-; reflexivity. }
      destruct (match gf_cm g3 with SINGLE_IMU_PLUS_ANG_VEL => _ | _ => _ end) as [g4|] eqn:E4; cbn [bind]; [|discriminate].
      assert (gf_x g4 = gf_x g3) as X4. { destruct (gf_cm g3); try (destruct (gf_imu g3); cbn [of_opt bind] in E4; [|discriminate]); injection E4 as <-; reflexivity. }
      destruct (match gf_cm g4 with SINGLE_IMU_PLUS_ANG_VEL => _ | _ => _ end) as [g5|] eqn:E5; cbn [bind]; [|discriminate].
      assert (gf_x g5 = gf_x g4) as X5. { destruct (gf_cm g4); try (destruct (gf_av g4); cbn [of_opt bind] in E5; [|discriminate]); injection E5 as <-; reflexivity. }
      injection 1 as <-. split; [reflexivity|]. cbn. rewrite X5, X4, X3. reflexivity. }
    split; [exact A1|]. rewrite Hus, app_length. split; [lia|]. split; [unfold us in HN; cbn in HN; lia|]. rewrite A2. rewrite firstn_app, HN, Nat.sub_diag. cbn [firstn]. rewrite app_nil_r, <- HN, firstn_all.
    split; [apply head_vec6|apply tail_vec6].
Qed.
Lemma calib_step g g' N all o : calib g N all -> no_gclear o = true -> o <> GRun -> gf_step g o = Ok g' -> calib g' N (all ++ g_imus [o]).
Proof.
  intros C. pose proof C as [Hi Hs Hz (us & Hus & Hv & Hn) (q & Eq)]. assert (calib g N (all ++ [])) as C0 by (rewrite app_nil_r; exact C). destruct o; cbn [gf_step no_gclear]; try discriminate; try congruence; intros _ _.
  - destruct (gf_gyro g); cbn [of_opt bind]; [|discriminate]. injection 1 as <-. destruct C0; constructor; auto.
  - rewrite Eq. cbn [of_opt bind]. injection 1 as <-. constructor; cbn; auto; [|eauto]. exists us. rewrite Hus, Eq. cbn. rewrite app_assoc. auto.
  - injection 1 as <-. destruct C0; constructor; auto.
  - destruct (gf_av g); cbn [of_opt bind]; [|discriminate]. injection 1 as <-. destruct C0; constructor; auto.
  - injection 1 as <-. destruct C0; constructor; auto.
Qed.
Lemma multi_init : forall todo g fused done g', multi_loop g fused done todo = Ok g' -> gf_init g' = gf_init g.
Proof.
  induction todo as [|q todo IH]; intros g fused done g'; cbn [multi_loop]; [injection 1 as <-; reflexivity|]. destruct q as [|m q]; [apply IH|].
  destruct (in_time g (i_t m)).
  - destruct (AngVelFilterCorrectIMU g m) as [[g1 f]|] eqn:E; cbn [bind]; [|discriminate]. apply corr_imu_inv in E. destruct E as (x & P & -> & _). intros E. rewrite (IH _ _ _ _ E). reflexivity.
  - cbn [bind]. intros E. rewrite (IH _ _ _ _ E). destruct fused; reflexivity.
Qed.
Lemma init_stays g g' o : no_gclear o = true -> gf_step g o = Ok g' -> gf_init g = true -> gf_init g' = true.
Proof.
  destruct o; cbn [gf_step no_gclear]; try discriminate; intros _.
  - destruct (gf_gyro g); cbn [of_opt bind]; [|discriminate]. injection 1 as <-. auto.
  - destruct (gf_imu g); cbn [of_opt bind]; [|discriminate]. injection 1 as <-. auto.
  - injection 1 as <-. auto.
  - destruct (gf_av g); cbn [of_opt bind]; [|discriminate]. injection 1 as <-. auto.
  - intros E Hi. assert ({gf_cm g = MULTI_IMU} + {gf_cm g <> MULTI_IMU}) as [Hm|Hm] by (decide equality).
    + unfold ImuFilter_RunOnce in E. rewrite Hi in E. destruct (match gf_pm g with GYRO => _ | RANDOM_WALK => _ end) as [g1|] eqn:E1; cbn [bind] in E; [|discriminate].
      assert (gf_cm g1 = gf_cm g /\ gf_init g1 = gf_init g) as [A1 A2].
      { destruct (gf_pm g). apply gyro_prop_inv in E1. tauto. apply walk_prop_inv in E1. destruct E1 as (P & _ & ->). auto. }
      rewrite A1, Hm in E. cbn [maybe_clear bind] in E. apply multi_init in E. congruence.
    + destruct (hstep_one g g' GRun Hi Hm eq_refl eq_refl E). auto.
  - injection 1 as <-. auto.
Qed.
Lemma calib_hist : forall os g0 N g, calib g0 N [] -> forallb no_gclear os = true -> gf_run g0 os = Ok g -> gf_init g = false -> calib g N (g_imus os).
Proof.
  induction os as [|o os IH] using rev_ind; intros g0 N g C0 Hc E Hi.
  - injection E as <-. exact C0.
  - rewrite forallb_app in Hc. apply andb_prop in Hc. destruct Hc as [Hc1 Hc2]. cbn in Hc2. rewrite andb_true_r in Hc2.
    rewrite gf_run_app in E. destruct (gf_run g0 os) as [g1|] eqn:E1; cbn [bind] in E; [|discriminate]. unfold gf_run in E. cbn [foldM] in E. destruct (gf_step g1 o) as [g2|] eqn:E2; cbn [bind] in E; [|discriminate]. injection E as <-.
    assert (gf_init g1 = false) as H1. { destruct (gf_init g1) eqn:H1; auto. rewrite (init_stays g1 g2 o Hc2 E2 H1) in Hi. discriminate. }
    pose proof (IH g0 N g1 C0 Hc1 E1 H1) as C1.
    assert (g_imus (os ++ [o]) = g_imus os ++ g_imus [o]) as -> by (unfold g_imus; apply flat_map_app).
    assert (o = GRun \/ o <> GRun) as [->|Ho] by (destruct o; ((left; reflexivity) || (right; discriminate))).
    + cbn [gf_step] in E2. destruct (calib_run g1 g2 N _ C1 E2) as [[_ C2]|[H2 _]]; [|congruence]. cbn. rewrite app_nil_r. exact C2.
    + eapply calib_step; eauto.
Qed.
Lemma thm_calib os g0 N g g' : calib g0 N [] -> forallb no_gclear os = true -> gf_run g0 os = Ok g -> gf_init g = false -> gf_step g GRun = Ok g' -> gf_init g' = true ->
  (0 < N <= length (g_imus os))%nat /\ head3 (gf_x g') = vzero /\ tail3 (gf_x g') = mean (map i_w (firstn N (g_imus os))).
Proof.
  intros C0 Hc E Hi Er Hi'. pose proof (calib_hist os g0 N g C0 Hc E Hi) as C. cbn [gf_step] in Er. destruct (calib_run g g' N _ C Er) as [[H _]|(_ & A & B & D & F)]; [congruence|]. auto.
Qed.
Lemma setup_calib c N l : q_static c = Some true -> q_size c = Some (Z.of_nat N) -> In AImu l -> calib (gf_setup (ImuAngVelEKF_config c) l) N [].
Proof.
  intros Hs Hz. unfold gf_setup. set (g0 := ImuAngVelEKF_config c).
  assert (forall l g, gf_init g = false -> gf_static g = true -> gf_size g = Some (Z.of_nat N) -> gf_vec g = [] -> (gf_imu g = Some [] /\ (1 <= gf_nimu g)%nat \/ gf_nimu g = 0%nat /\ In AImu l) -> calib (fold_left gf_add l g) N []) as H.
  { clear. induction l as [|a l IH]; intros g H1 H2 H3 H4 H5.
    - destruct H5 as [[H5 _]|[_ []]]. constructor; auto; [|eauto]. exists []. cbn. rewrite H5. repeat split; auto; lia.
    - cbn [fold_left]. destruct a; cbn [gf_add].
      + apply IH; auto. destruct H5 as [[? ?]|[? [?|?]]]; [left|discriminate|right]; auto.
      + unfold add_imu_correction. destruct (Nat.eqb_spec (S (gf_nimu g)) 1).
        * apply IH; auto. left. cbn. auto with arith.
        * apply IH; auto. destruct H5 as [[? ?]|[? ?]]; [left; cbn; auto with arith|lia].
      + apply IH; auto. destruct H5 as [[? ?]|[? [?|?]]]; [left|discriminate|right]; auto. }
  intros HI. apply H; auto; unfold g0; cbn; rewrite ?Hs, ?Hz; auto.
Qed.
(** a calibration window of length 0 divides by zero *)
Lemma thm_calib_zero c : q_static c = Some true -> q_size c = Some 0%Z -> gf_run (gf_setup (ImuAngVelEKF_config c) [AImu]) [GRun] = Fail DivZero.
Proof.
  intros A B. unfold gf_run. cbn [foldM gf_step]. unfold ImuFilter_RunOnce. cbn [gf_setup fold_left gf_add add_imu_correction gf_set_imu gf_mode gf_queues ImuAngVelEKF_config gf_make gf_init gf_nimu Nat.eqb maybe_clear bind].
  unfold InitializeFilter. cbn. rewrite A, B. reflexivity.
Qed.
