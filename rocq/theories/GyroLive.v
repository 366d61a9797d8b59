(** Gyro filter: with an encoder every iteration takes a waiting sample; wrappers of the
    other theorems for filters reached by a history. *)
From Coq Require Import Reals ZArith List Bool Arith Lia Lra.
From Verif Require Import Res Vec3 Mat MatInv Psd Spec LieGroup RobotState Imu Propagation ImuFilter SpecGyro GyroThms GyroHist GyroEx GyroMore GyroFlat.
Import ListNotations.
Local Open Scope R_scope.

Lemma gf_run_inv c l os g : greach c l os g -> gyro_inv g.
Proof. intros [Hc E]. eapply run_inv; [exact Hc|exact E]. Qed.
(** with an encoder and one IMU, or an encoder alone, a waiting sample is taken by each iteration *)
Lemma thm_progress g g' : gf_init g = true -> gf_cm g = SINGLE_IMU_PLUS_ANG_VEL \/ gf_cm g = ANG_VEL -> ImuFilter_RunOnce g false = Ok g' ->
  (gf_cm g = ANG_VEL -> length (q_of (gf_av g')) = pred (length (q_of (gf_av g)))) /\
  (gf_cm g = SINGLE_IMU_PLUS_ANG_VEL ->
   (length (q_of (gf_imu g')) + length (q_of (gf_av g')) = pred (length (q_of (gf_imu g)) + length (q_of (gf_av g))))%nat).
Proof.
  intros Hi Hm E. unfold ImuFilter_RunOnce in E. rewrite Hi in E.
  destruct (match gf_pm g with GYRO => GyroPropagate g | RANDOM_WALK => RandomWalkPropagate g end) as [g1|] eqn:E1; cbn [bind] in E; [|discriminate].
  assert (gf_imu g1 = gf_imu g /\ gf_av g1 = gf_av g /\ gf_cm g1 = gf_cm g) as (A1 & A3 & A5).
  { destruct (gf_pm g).
    - apply gyro_prop_inv in E1. destruct E1 as (B1 & B2 & B3 & B4 & B5 & _). auto.
    - apply walk_prop_inv in E1. destruct E1 as (P & _ & ->). auto. }
  rewrite <- A1, <- A3, <- A5 in *. clear A1 A3 A5 E1 Hi g. split; intros Hc; rewrite Hc in E.
  - unfold AngVelCorrection in E. destruct (gf_av g1) as [qa|] eqn:Ea; cbn [of_opt bind] in E; [|discriminate]. destruct qa as [|a qa]; cbn [maybe_clear bind] in E.
    + injection E as <-. rewrite Ea. reflexivity.
    + destruct (match gf_latest g1 with Some m => _ | None => _ end) as [g2|] eqn:E2; cbn [bind] in E; [|discriminate].
      assert (gf_av g2 = gf_av g1) as H2.
      { destruct (gf_latest g1); [|congruence]. unfold AngVelFilterCorrectEncoder in E2. destruct (ang_vel_update _ _ _ _ _) as [[x P]|]; cbn in E2; [|discriminate]. injection E2 as <-. reflexivity. }
      rewrite H2, Ea in E. cbn in E. injection E as <-. reflexivity.
  - unfold SingleImuAngVelCorrection in E. destruct (gf_imu g1) as [qi|] eqn:Ei; cbn [of_opt bind] in E; [|discriminate]. destruct (gf_av g1) as [qa|] eqn:Ea; cbn [of_opt bind] in E; [|discriminate].
    assert (forall g2 m g3, gf_imu g2 = gf_imu g1 -> gf_av g2 = gf_av g1 -> (if in_time g2 (i_t m) then let* p := AngVelFilterCorrectIMU g2 m in Ok (gf_push p) else Ok g2) = Ok g3 -> gf_imu g3 = gf_imu g1 /\ gf_av g3 = gf_av g1) as HI.
    { intros g2 m g3 X1 X2 X. destruct (in_time _ _); [|injection X as <-; auto]. unfold AngVelFilterCorrectIMU in X. destruct (ang_vel_update _ _ _ _ _) as [[x P]|]; cbn in X; [|discriminate]. injection X as <-. auto. }
    assert (forall a g3, match gf_latest g1 with None => Ok g1 | Some m => if in_time g1 (av_t a) then let* p := AngVelFilterCorrectEncoder g1 m a in Ok (gf_push p) else Ok g1 end = Ok g3 -> gf_imu g3 = gf_imu g1 /\ gf_av g3 = gf_av g1) as HA.
    { intros a g3 X. destruct (gf_latest g1); [|injection X as <-; auto]. destruct (in_time _ _); [|injection X as <-; auto]. unfold AngVelFilterCorrectEncoder in X. destruct (ang_vel_update _ _ _ _ _) as [[x P]|]; cbn in X; [|discriminate]. injection X as <-. auto. }
    destruct qi as [|m qi], qa as [|a qa]; cbn [hd_error maybe_clear bind] in E.
    + injection E as <-. rewrite Ei, Ea. reflexivity.
    + match type of E with bind ?t _ = _ => destruct t as [g2|] eqn:E2 end; cbn [bind] in E; [|discriminate]. apply HA in E2. destruct E2 as [X1 X2]. rewrite X2, Ea in E. cbn in E. injection E as <-. cbn. rewrite X1, Ei. reflexivity.
    + match type of E with bind ?t _ = _ => destruct t as [g2|] eqn:E2 end; cbn [bind] in E; [|discriminate]. apply HI in E2; [|reflexivity|reflexivity]. destruct E2 as [X1 X2]. rewrite X1, Ei in E. cbn in E. injection E as <-. cbn. rewrite X2, Ea. reflexivity.
    + destruct (Rle_dec (i_t m) (av_t a)); cbn [maybe_clear bind] in E.
      * match type of E with bind ?t _ = _ => destruct t as [g2|] eqn:E2 end; cbn [bind] in E; [|discriminate]. apply HI in E2; [|reflexivity|reflexivity]. destruct E2 as [X1 X2]. rewrite X1, Ei in E. cbn in E. injection E as <-. cbn. rewrite X2, Ea. cbn. lia.
      * match type of E with bind ?t _ = _ => destruct t as [g2|] eqn:E2 end; cbn [bind] in E; [|discriminate]. apply HA in E2. destruct E2 as [X1 X2]. rewrite X2, Ea in E. cbn in E. injection E as <-. cbn. rewrite X1, Ei. cbn. lia.
Qed.
Lemma thm_reckon_reach c l os0 g os g' : greach c l os0 g -> no_corr g -> (forall o, In o os -> match o with GRun | GGyro _ => True | _ => False end) -> gf_run g os = Ok g' ->
  no_corr g' /\ exists us, q_of (gf_gyro g) ++ g_gyros os = us ++ q_of (gf_gyro g') /\ reckon g g' us.
Proof. intros R N Ho E. destruct (thm_reckon os g g' (gf_run_inv _ _ _ _ R) N Ho E) as (_ & A & B). auto. Qed.
Lemma thm_idle_reach c l os g n g' : greach c l os g -> g_idle g -> gf_run g (repeat GRun n) = Ok g' ->
  (gf_pm g = GYRO -> g' = g) /\ (gf_pm g = RANDOM_WALK -> gf_x g' = gf_x g /\ gf_P g' = gf_P g +M INR n *S gf_Q g /\ gf_out g' = gf_out g).
Proof.
  intros R (I1 & I2 & I3 & I4 & I5) E. split; intros H.
  - eapply thm_idle_gyro; eauto.
  - rewrite (thm_idle_walk g g' n (gf_run_inv _ _ _ _ R) I1 H I3 I4 I5 E). auto.
Qed.
Lemma thm_calib_reach c N l os g g' : q_static c = Some true -> q_size c = Some (Z.of_nat N) -> In AImu l -> forallb no_gclear os = true ->
  gf_run (gf_setup (ImuAngVelEKF_config c) l) os = Ok g -> gf_init g = false -> gf_step g GRun = Ok g' -> gf_init g' = true ->
  (0 < N <= length (g_imus os))%nat /\ head3 (gf_x g') = vzero /\ tail3 (gf_x g') = mean (map i_w (firstn N (g_imus os))).
Proof. intros H1 H2 H3. apply thm_calib. apply setup_calib; auto. Qed.
(** examples *)
Definition cal_gcfg : gf_cfg := mkGCfg None None None None (Some true) (Some 2%Z) None None None None None None None.
Lemma ex_calib m1 m2 : exists g g', gf_run (gf_setup (ImuAngVelEKF_config cal_gcfg) [AImu]) [GImu m1; GImu m2; GRun; GRun] = Ok g /\ gf_init g = false /\ gf_step g GRun = Ok g' /\ gf_init g' = true.
Proof.
  set (g0 := gf_setup _ _). set (mo := fun g => gf_mode g (gf_pm g) (pick_method g) (gf_nimu g) (gf_nav g) (gf_init g)).
  set (ga := gf_set_imu (gf_set_imu g0 [m1]) [m1; m2]).
  assert (gf_run g0 [GImu m1; GImu m2] = Ok ga) as E0 by reflexivity.
  assert (forall g, gf_init g = false -> gf_step g GRun = InitializeFilter (mo g)) as ER by (intros g H; cbn [gf_step]; unfold ImuFilter_RunOnce; rewrite H; reflexivity).
  set (gb := gf_set_vec (gf_set_imu (mo ga) [m2]) [i_w m1]). set (gc := gf_set_vec (gf_set_imu (mo gb) []) [i_w m1; i_w m2]).
  assert (gf_step ga GRun = Ok gb) as E1 by (rewrite ER by reflexivity; reflexivity).
  assert (gf_step gb GRun = Ok gc) as E2 by (rewrite ER by reflexivity; reflexivity).
  exists gc. eexists. split; [|split; [reflexivity|split]].
  - change [GImu m1; GImu m2; GRun; GRun] with ([GImu m1; GImu m2] ++ [GRun; GRun]). rewrite gf_run_app, E0. cbn [bind]. rewrite gf_run_cons, E1. cbn [bind]. rewrite gf_run_cons, E2. reflexivity.
  - rewrite ER by reflexivity. unfold InitializeFilter. change (gf_size (mo gc)) with (Some 2%Z). change (gf_vec (mo gc)) with [i_w m1; i_w m2]. change (gf_static (mo gc)) with true. cbn [of_opt bind].
    change (vec_short (length [i_w m1; i_w m2]) 2 && true)%bool with false. cbn match. cbn [average bind]. change (gf_pm (gf_set_est _ _ _)) with RANDOM_WALK. cbn [bind]. change (gf_cm (gf_set_est _ _ _)) with SINGLE_IMU. change (gf_imu (gf_set_est _ _ _)) with (Some (@nil imu)). cbn [of_opt bind].
    change (gf_cm (gf_set_imu _ _)) with SINGLE_IMU. cbn [bind]. reflexivity.
  - reflexivity.
Qed.
Lemma ex_no_corr : exists g, greach no_gcfg [AGyro; AImu] [GRun] g /\ no_corr g.
Proof.
  set (g0 := gf_setup (ImuAngVelEKF_config no_gcfg) [AGyro; AImu]). set (g1 := gf_mode (gf_mode g0 GYRO SINGLE_IMU 1 0 false) GYRO SINGLE_IMU 1 0 true).
  exists g1. split; [split; [apply no_gcfg_ok|]|].
  - fold g0. rewrite gf_run_cons. assert (gf_step g0 GRun = Ok g1) as -> by reflexivity. reflexivity.
  - split; [reflexivity|]. split; [reflexivity|]. split; [intros q []|]. split; reflexivity.
Qed.
Lemma ex_idle : exists g, greach no_gcfg [AImu; AAv] [GRun] g /\ g_idle g /\ gf_pm g = RANDOM_WALK /\ gf_P g <> gf_P g +M INR 1 *S gf_Q g.
Proof.
  set (g0 := gf_setup (ImuAngVelEKF_config no_gcfg) [AImu; AAv]). set (g1 := gf_mode (gf_mode g0 RANDOM_WALK SINGLE_IMU_PLUS_ANG_VEL 1 1 false) RANDOM_WALK SINGLE_IMU_PLUS_ANG_VEL 1 1 true).
  exists g1. split; [split; [apply no_gcfg_ok|]|].
  { fold g0. rewrite gf_run_cons. assert (gf_step g0 GRun = Ok g1) as -> by reflexivity. reflexivity. }
  split. { split; [reflexivity|]. split; [reflexivity|]. split; [reflexivity|]. split; [reflexivity|]. intros q []. }
  split; [reflexivity|]. change (gf_P g1) with (diag_cov (1 / 100) (1 / 100)). change (gf_Q g1) with (diag_cov (1 / 100) (1 / 100)). intros E. apply (f_equal (fun M => ent M 0 0)) in E.
  rewrite ent_plus in E by reflexivity. rewrite ent_scl in E. unfold diag_cov in E. rewrite !ent_mk in E by lia. cbn in E. lra.
Qed.
Definition ex_g1 : gfilt := gf_set_imu (gf_mode (gf_mode (gf_setup (ImuAngVelEKF_config no_gcfg) [AImu; AAv]) RANDOM_WALK SINGLE_IMU_PLUS_ANG_VEL 1 1 false) RANDOM_WALK SINGLE_IMU_PLUS_ANG_VEL 1 1 true) [at_time 1].
Lemma ex_run1 : gf_run (gf_setup (ImuAngVelEKF_config no_gcfg) [AImu; AAv]) [GRun; GImu (at_time 1)] = Ok ex_g1.
Proof.
  unfold ex_g1. set (g0 := gf_setup (ImuAngVelEKF_config no_gcfg) [AImu; AAv]). set (g1 := gf_mode (gf_mode g0 RANDOM_WALK SINGLE_IMU_PLUS_ANG_VEL 1 1 false) RANDOM_WALK SINGLE_IMU_PLUS_ANG_VEL 1 1 true).
  rewrite gf_run_cons. assert (gf_step g0 GRun = Ok g1) as -> by reflexivity. cbn [bind]. rewrite gf_run_cons. cbn [gf_step]. change (gf_imu g1) with (Some (@nil imu)). reflexivity.
Qed.
Lemma ex_run2 : exists g', gf_run ex_g1 [GRun] = Ok g' /\ gf_imu g' = Some [].
Proof.
  assert (gyro_inv ex_g1) as I1 by (eapply gf_run_inv; split; [apply no_gcfg_ok|exact ex_run1]).
  destruct (walk_inv ex_g1 I1) as (g3 & E3 & I3 & _). pose proof (walk_prop_inv _ _ E3) as (P & _ & ->).
  set (g3 := gf_set_est ex_g1 (gf_x ex_g1) P) in *. set (g4 := gf_set_prev g3 (gf_last g3) (gf_prev g3) (Some (at_time 1))). assert (gyro_inv g4) as I4 by (eapply inv_same; [exact I3|reflexivity..]).
  destruct (correct_imu_ok g4 (at_time 1) I4) as (x & P' & E' & _).
  eexists. rewrite gf_run_cons. cbn [gf_step]. unfold ImuFilter_RunOnce. change (gf_init ex_g1) with true. change (gf_pm ex_g1) with RANDOM_WALK. cbn match.
  rewrite E3. cbn [bind]. change (gf_cm g3) with SINGLE_IMU_PLUS_ANG_VEL. cbn match. unfold SingleImuAngVelCorrection. change (gf_imu g3) with (Some [at_time 1]). change (gf_av g3) with (Some (@nil avmeas)). cbn [of_opt bind hd_error maybe_clear].
  fold g4. assert (in_time g4 (i_t (at_time 1)) = true) as ->. { unfold in_time. change (gf_last g4) with (-1). destruct (Req_EM_T _ _); [reflexivity|lra]. }
  rewrite E'. cbn [bind]. change (gf_imu (gf_push _)) with (Some [at_time 1]). cbn [of_opt bind pop]. split; reflexivity.
Qed.
