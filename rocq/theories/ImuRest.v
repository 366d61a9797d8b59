(** C17 (limits), C43 and the closed form of set_initial_state. *)
From Coq Require Import Reals ZArith List Bool Lia Lra.
From Verif Require Import Res Vec3 Mat LieGroup MatInv Psd Spec LieSO3 LieSEK RobotState StateProofs StateMisc Inekf SpecFilter
  InekfProofs Imu Propagation SpecProp Blk PropagationProofs PropagationThms PropagationExact ImuThms.
Import ListNotations.
Local Open Scope R_scope.

(** ** set_initial_state *)
Definition init_rot (ip : imu_prop) (m : imu) : M3 := if ip_use_ori ip then toRotationMatrix (i_q m) else mid.
Definition init_state (K : nat) (ip : imu_prop) (m : imu) (s : rstate) : rstate :=
  mkRS (stype s) (sek K (init_rot ip m) (fun i => if Nat.eqb i 1 then vzero else col (sX s) i))
    (put (put (sTheta s) 0 0 (ofV3 (ip_bg0 ip))) 3 0 (ofV3 (ip_ba0 ip)))
    (put (put (sP s) 9 9 (ofM3 (ip_gyro_bias_cov ip))) 12 12 (ofM3 (ip_accel_bias_cov ip)))
    (scmap s) (Some (i_t m)) (Some (i_t m)) (sQc s) (Some (i_w m)) (ip_enable ip) (sslip s).
Lemma set_initial_ok K ip s m q : wfp K s -> ip_queue ip = m :: q ->
  set_initial_state ip s = Ok (true, set_prev (set_queue ip q) m, init_state K ip m s).
Proof.
  intros [[WX WT1 WT2 WP1 WP2] HK HT HQ1 HQ2] Hq. unfold set_initial_state. rewrite Hq.
  pose proof (SEK_form K _ WX) as HF. pose proof (sek_rows _ _ WX) as HR1. pose proof (sek_cols _ _ WX) as HC1.
  unfold set_rotation, set_position, set_gyroscope_bias, set_accelerometer_bias, set_gyroscope_bias_covariance,
    set_accelerometer_bias_covariance, set_cov3. srs.
  pose proof (put_col_sek K (init_rot ip m) (col (sX s)) 1 vzero) as E1. change (3 + 1)%nat with 4%nat in E1.
  assert (put (put (sX s) 0 0 (ofM3 (init_rot ip m))) 0 4 (ofV3 vzero) = sek K (init_rot ip m) (fun i => if Nat.eqb i 1 then vzero else col (sX s) i)) as E2.
  { rewrite HF at 1. rewrite put_rot_sek. apply E1. lia. }
  repeat (okstep; srs). unfold init_state. fold (init_rot ip m). rewrite E2. reflexivity.
Qed.
Lemma init_state_wfp K ip m s : wfp K s -> SO3 (init_rot ip m) -> wfp K (init_state K ip m s).
Proof.
  intros [[WX WT1 WT2 WP1 WP2] HK HT HQ1 HQ2] HR. unfold init_state. split; auto. split; cbn [sX sTheta sP]; mdim. apply SEK_sek; auto.
Qed.
Lemma init_state_bias K ip m s : wfp K s ->
  gbias (init_state K ip m s) = ip_bg0 ip /\ abias (init_state K ip m s) = ip_ba0 ip.
Proof.
  intros [[WX WT1 WT2 WP1 WP2] HK HT HQ1 HQ2]. unfold gbias, abias, init_state. cbn [sTheta]. split.
  - rewrite getV3_put_other by (mdim; lia). apply getV3_put_same; mdim; lia.
  - apply getV3_put_same; mdim; lia.
Qed.

(** ** C43 *)
Lemma mean_const v l c : is_mean v l -> (forall u, In u l -> u = c) -> v = c.
Proof.
  intros [Hne H] Hc. apply V3_ext. intros k Hk. rewrite H by auto.
  assert (forall l, (forall u, In u l -> u = c) -> fold_right Rplus 0 (map (fun u => vget u k) l) = INR (length l) * vget c k) as G.
  { clear. induction l as [|x l IH]; intros Hc; [cbn; ring|]. cbn [map fold_right length]. rewrite IH by (intros; apply Hc; right; auto).
    rewrite (Hc x) by (left; auto). rewrite S_INR. ring. }
  rewrite G by auto. assert (INR (length l) <> 0) by (apply not_0_INR; destruct l; [congruence|discriminate]). field; auto.
Qed.

(** velocity gained per second by a resting robot: zero iff the model of rest used
    by the calibration agrees with the one used by propagation *)
Lemma stepX_rest K X a d dt : (2 <= K)%nat -> rot X *v a +v g_ = d ->
  rot (stepX K X vzero a dt) = rot X /\ col (stepX K X vzero a dt) 0 = col X 0 +v dt *s d /\
  col (stepX K X vzero a dt) 1 = col X 1 +v dt *s col X 0 +v (dt ^ 2 / 2) *s d.
Proof.
  intros HK Ha. unfold stepX. rewrite vscal_zero, expSO3_0, jl_0, g2_0. cbv zeta.
  rewrite rot_aff, !col_aff by lia. rewrite !mmul_id_r.
  split; [reflexivity|]. split.
  - rewrite Ha. reflexivity.
  - replace (rot X *m ((1 / 2) *ms mid) *v a +v (1 / 2) *s g_) with ((1 / 2) *s (rot X *v a +v g_)).
    + rewrite Ha. apply V3_eq; u3; field.
    + rewrite mmul_scal_r, mmul_id_r, mv_scal_l. generalize (rot X *v a). intros u. ring3.
Qed.

Lemma thm_drift K ip bs0 m0 ip1 b1 s ip2 s1 bs n ip3 s2 :
  ip_static ip = true -> (0 < ip_init_size ip)%Z -> ip_vec ip = [] -> ip_bias_init ip = false ->
  Forall (same_reading m0) (ip_queue ip ++ concat bs0 ++ b1 ++ concat bs) ->
  calibrate ip bs0 = Ok ip1 -> ip_bias_init ip1 = true ->
  wfp K s -> col (sX s) 0 = vzero ->
  set_initial_state (set_queue ip1 (ip_queue ip1 ++ b1)) s = Ok (true, ip2, s1) ->
  run ip2 s1 bs = Ok (n, ip3, s2) ->
  (ip_use_ori ip = true -> qnorm2 (i_q m0) = 1 /\ SO3 (ip_Rib ip)) ->
  exists T1 T2, stprop s1 = Some T1 /\ stprop s2 = Some T2 /\
    rot (sX s2) = rot (sX s1) /\
    col (sX s2) 0 = (T2 - T1) *s rest_drift ip m0 /\
    col (sX s2) 1 = ((T2 - T1) ^ 2 / 2) *s rest_drift ip m0.
Proof.
  intros Hst Hn Hv Hb HF Hcal Hb1 W Hv0 Hinit Hrun Hori.
  destruct (thm_calibration ip bs0 Hst Hn Hv Hb) as (ip' & used & E & U1 & U2 & U3 & U4 & U5 & C).
  rewrite Hcal in E. injection E as <-. destruct (U5 Hb1) as (V1 & V2 & V3'). clear U4 U5.
  assert (Forall (same_reading m0) used /\ Forall (same_reading m0) (ip_queue ip1) /\ Forall (same_reading m0) b1 /\ Forall (same_reading m0) (concat bs)) as (F1 & F2 & F3 & F4).
  { rewrite app_assoc, <- U1 in HF. apply Forall_app in HF. destruct HF as [A B]. apply Forall_app in A. apply Forall_app in B. tauto. }
  assert (forall m, same_reading m0 m -> SO3 (rest_orientation ip m)) as HRO.
  { intros m (_ & _ & Q). unfold rest_orientation. destruct (ip_use_ori ip) eqn:Eo; [|apply SO3_id].
    destruct (Hori eq_refl) as (Q1 & Q2). apply SO3_mul; auto. rewrite Q. apply thm_quat_unit; auto. }
  rewrite Forall_forall in F1.
  specialize (V3' (fun m Hm => HRO m (F1 m Hm))).
  apply (mean_const _ _ (rest_gyro ip m0)) in V2.
  2:{ intros u Hu. apply in_map_iff in Hu. destruct Hu as (m & <- & Hm). destruct (F1 m Hm) as (A & _). unfold rest_gyro. rewrite A. reflexivity. }
  apply (mean_const _ _ (rest_accel ip (rest_orientation ip m0) m0)) in V3'.
  2:{ intros u Hu. apply in_map_iff in Hu. destruct Hu as (m & <- & Hm). destruct (F1 m Hm) as (A & B & D).
      unfold rest_accel, rest_orientation, rest_gyro. rewrite A, B, D. reflexivity. }
  destruct C as (C1 & C2 & C3 & C4 & C5 & C6 & C7 & C8 & C9 & C10 & C11).
  set (ipq := set_queue ip1 (ip_queue ip1 ++ b1)) in *.
  destruct (ip_queue ipq) as [|m q] eqn:Eq.
  { unfold set_initial_state in Hinit. rewrite Eq in Hinit. discriminate. }
  rewrite (set_initial_ok K ipq s m q W Eq) in Hinit. injection Hinit as <- <-.
  assert (Forall (same_reading m0) (m :: q)) as Fq by (rewrite <- Eq; unfold ipq; cbn [ip_queue set_queue]; apply Forall_app; auto).
  inversion Fq as [|? ? Fm Fq']; subst.
  assert (SO3 (init_rot ipq m)) as HR.
  { unfold init_rot. change (ip_use_ori ipq) with (ip_use_ori ip1). rewrite C4. destruct (ip_use_ori ip) eqn:Eo; [|apply SO3_id].
    destruct (Hori eq_refl) as (Q1 & _). destruct Fm as (_ & _ & Q). rewrite Q. apply thm_quat_unit; auto. }
  pose proof (init_state_wfp K ipq m s W HR) as W1. destruct (init_state_bias K ipq m s W) as [B1 B2].
  pose proof (wp_K _ _ W) as HK.
  destruct (fun E => run_spec _ _ _ _ _ _ m E Hrun) as (us & m1 & R1 & R2 & R3 & R4 & R5); [reflexivity|].
  assert (Forall (same_reading m0) us) as Fu.
  { assert (Forall (same_reading m0) (us ++ m1 :: ip_queue ip3)) as X.
    { rewrite R1. constructor; auto. cbn [ip_queue set_prev set_queue]. apply Forall_app; auto. }
    apply Forall_app in X. tauto. }
  set (ipz := set_prev (set_queue ipq q) m) in *.
  assert (rot (sX (init_state K ipq m s)) = init_rot ipq m) as RI by apply rot_aff.
  assert (col (sX (init_state K ipq m s)) 0 = vzero /\ col (sX (init_state K ipq m s)) 1 = vzero) as [VI PI].
  { unfold init_state. cbn [sX]. rewrite !col_aff by lia. auto. }
  (* one step *)
  assert (init_rot ipq m *v (cross (rest_gyro ip m0) (cross (rest_gyro ip m0) (ip_t ip)) -v mtr (rest_orientation ip m0) *v gravity) +v g_ = rest_drift ip m0) as Hz.
  { unfold rest_drift, start_orientation. unfold init_rot. change (ip_use_ori ipq) with (ip_use_ori ip1). rewrite C4.
    destruct Fm as (_ & _ & Q). rewrite Q. reflexivity. }
  assert (forall us s0 t0 s9, Forall (same_reading m0) us -> wfp K s0 -> stprop s0 = Some t0 ->
    rot (sX s0) = init_rot ipq m -> gbias s0 = ip_bg0 ip1 -> abias s0 = ip_ba0 ip1 ->
    foldM (fun s x => propagate_with ipz x s) s0 us = Ok s9 ->
    exists t9, stprop s9 = Some t9 /\ rot (sX s9) = rot (sX s0) /\ 
      col (sX s9) 0 = col (sX s0) 0 +v (t9 - t0) *s rest_drift ip m0 /\
      col (sX s9) 1 = col (sX s0) 1 +v (t9 - t0) *s col (sX s0) 0 +v ((t9 - t0) ^ 2 / 2) *s rest_drift ip m0) as G.
  { clear us R1 R3 R5 Fu. induction us as [|x us IH]; intros s0 t0 s9 Fus W0 T0 E1 E3 E4 H; cbn [foldM] in H.
    - injection H as <-. exists t0. split; [auto|]. split; [auto|]. replace (t0 - t0) with 0 by ring.
      split; apply V3_eq; u3; field.
    - apply bind_inv in H. destruct H as (sa & Ha & H). inversion Fus as [|? ? Fx Fus']; subst.
      destruct (step_wfp K ipz x s0 t0 sa W0 T0 Ha) as (Wa & Ta & _ & Tha & _).
      pose proof (step_eq K ipz x s0 t0 W0 T0) as Es. cbv zeta in Es. rewrite Es in Ha. injection Ha as Ha.
      assert (sX sa = stepX K (sX s0) (rate ipz x (gbias s0)) (accel ipz x (gbias s0) (abias s0)) (i_t x - t0)) as EX by (rewrite <- Ha; reflexivity).
      assert (rate ipz x (gbias s0) = vzero) as Erate.
      { unfold rate. rewrite E3, V2. unfold rest_gyro. change (ip_Rib ipz) with (ip_Rib ip1). rewrite C5. destruct Fx as (A & _). rewrite A. apply vsub_diag. }
      assert (accel ipz x (gbias s0) (abias s0) = cross (rest_gyro ip m0) (cross (rest_gyro ip m0) (ip_t ip)) -v mtr (rest_orientation ip m0) *v gravity) as Eacc.
      { unfold accel. rewrite Erate, E4, V3'. unfold rest_accel. change (ip_Rib ipz) with (ip_Rib ip1). rewrite C5. destruct Fx as (_ & A & _). rewrite A.
        generalize (ip_Rib ip *v i_a m0) (cross (rest_gyro ip m0) (cross (rest_gyro ip m0) (ip_t ip))) (mtr (rest_orientation ip m0) *v gravity). intros. ring3. }
      rewrite Erate, Eacc in EX.
      destruct (stepX_rest K (sX s0) _ _ (i_t x - t0) HK (eq_trans (f_equal (fun M => M *v _ +v g_) E1) Hz)) as (S1 & S2 & S3).
      rewrite <- EX in S1, S2, S3.
      destruct (IH sa (i_t x) s9 Fus' Wa Ta) as (t9 & T0' & T1 & T2 & T3); auto; try congruence.
      + unfold gbias. rewrite Tha. exact E3.
      + unfold abias. rewrite Tha. exact E4.
      + exists t9. split; [auto|]. split; [congruence|]. rewrite T2, T3, S2, S3. generalize (col (sX s0) 0) (col (sX s0) 1) (rest_drift ip m0).
        intros u v d. split; apply V3_eq; u3; field. }
  destruct (G us _ (i_t m) s2 Fu W1 eq_refl RI B1 B2 R5) as (T2 & T0 & T1 & T3 & T4).
  exists (i_t m), T2. split; [reflexivity|]. split; [auto|]. split; [exact T1|]. rewrite T3, T4, VI, PI.
  split; apply V3_eq; u3; field.
Qed.

Lemma thm_stationary K ip bs0 m0 ip1 b1 s ip2 s1 bs n ip3 s2 :
  ip_static ip = true -> (0 < ip_init_size ip)%Z -> ip_vec ip = [] -> ip_bias_init ip = false ->
  Forall (same_reading m0) (ip_queue ip ++ concat bs0 ++ b1 ++ concat bs) ->
  calibrate ip bs0 = Ok ip1 -> ip_bias_init ip1 = true ->
  wfp K s -> col (sX s) 0 = vzero ->
  set_initial_state (set_queue ip1 (ip_queue ip1 ++ b1)) s = Ok (true, ip2, s1) ->
  run ip2 s1 bs = Ok (n, ip3, s2) ->
  (* conditions on the mounting *)
  cross (rest_gyro ip m0) (cross (rest_gyro ip m0) (ip_t ip)) = vzero ->
  (ip_use_ori ip = true -> qnorm2 (i_q m0) = 1 /\ SO3 (ip_Rib ip) /\ ip_Rib ip *v gravity = gravity) ->
  rot (sX s2) = rot (sX s1) /\ col (sX s2) 0 = vzero /\ col (sX s2) 1 = vzero.
Proof.
  intros Hst Hn Hv Hb HF Hcal Hb1 W Hv0 Hinit Hrun Hmount Hori.
  destruct (thm_drift K ip bs0 m0 ip1 b1 s ip2 s1 bs n ip3 s2) as (T1 & T2 & E1 & E2 & E3 & E4 & E5); auto.
  { intros Ho. destruct (Hori Ho) as (A & B & _). auto. }
  assert (rest_drift ip m0 = vzero) as Z.
  { unfold rest_drift, start_orientation, rest_orientation. rewrite Hmount. destruct (ip_use_ori ip) eqn:Eo.
    - destruct (Hori eq_refl) as (Q1 & Q2 & Q3).
      assert (mtr (ip_Rib ip) *v gravity = gravity) as Q4 by (rewrite <- Q3 at 1; apply SO3_l; auto).
      rewrite mtr_mul, mv_mul, Q4. rewrite vsub_add, vadd_zero_l, mv_neg_r, SO3_rv by (apply thm_quat_unit; auto). ring3.
    - unfold gravity. ring3. }
  split; [exact E3|]. rewrite E4, E5, Z. split; ring3.
Qed.

(** ** C17: going back in time *)
Lemma backward_cov K ip s w a dt : wfp K s -> sP s = mO (9 + 3 * K) (9 + 3 * K) -> ip_err ip = LeftInvariant -> ip_enable ip = false ->
  getM3 (next_cov K ip s w a dt) 0 0 = dt *ms (mtr (expSO3 (dt *s w)) *m ip_gyro_cov ip *m expSO3 (dt *s w)).
Proof.
  intros [[WX WT1 WT2 WP1 WP2] HK HT HQ1 HQ2] HP He Hen. unfold next_cov. rewrite Hen.
  assert (nr (prior_cov K ip s w a dt) = (9 + 3 * K)%nat /\ nc (prior_cov K ip s w a dt) = (9 + 3 * K)%nat) as [D1 D2]
    by (unfold prior_cov; mdim; auto).
  assert (getM3 (mask_diag (biasm K) 1 (prior_cov K ip s w a dt)) 0 0 = getM3 (prior_cov K ip s w a dt) 0 0) as ->.
  { apply M3_ext; intros i j Hi Hj. rewrite !mget_getM3 by auto. rewrite ent_mask by (rewrite ?D1, ?D2; lia).
    unfold biasm. destruct (Nat.leb_spec (3 + 3 * K) (0 + i)), (Nat.leb_spec (3 + 3 * K) (0 + j)); try lia. reflexivity. }
  unfold prior_cov. rewrite He, Hen, HP. unfold NG.
  set (Phi := Phi_of K LeftInvariant false (sX s) w a dt).
  assert (nr Phi = 9 + 3 * K)%nat as N1 by apply nr_Phi. assert (nc Phi = 9 + 3 * K)%nat as N2 by apply nc_Phi.
  rewrite mmult_eye_r by auto.
  assert (forall k, (k < 3 + K)%nat -> getM3 Phi 0 (3 * k) = if Nat.eqb 0 k then mtr (expSO3 (dt *s w)) else mzero) as Row.
  { intros k Hk. unfold Phi, Phi_of. cbv zeta. rewrite (getM3_blk (3 + K) _ 0 k) by lia. unfold fL. caseb; try reflexivity. }
  rewrite getM3_plus by mdim. rewrite mmult_O_r, mmult_O_l, getM3_O.
  assert (getM3 (dt *S (Phi *M Qfull K ip (sQc s) *M mT Phi)) 0 0 = dt *ms getM3 (Phi *M Qfull K ip (sQc s) *M mT Phi) 0 0) as ->.
  { apply M3_ext; intros i j Hi Hj. rewrite mget_scal, !mget_getM3, ent_scl by auto. reflexivity. }
  rewrite (getM3_mult _ _ _ _ (3 + K)) by (mdim; lia).
  rewrite (msum_delta _ 0); [|intros k Hk Hn|lia].
  2:{ rewrite getM3_T, Row by auto. destruct k; [lia|]. cbn [Nat.eqb]. ring3. }
  rewrite getM3_T, (getM3_mult _ _ _ _ (3 + K)) by (rewrite N2; lia).
  rewrite (msum_delta _ 0); [|intros k Hk Hn|lia].
  2:{ rewrite Row by auto. destruct k; [lia|]. cbn [Nat.eqb]. apply mmul_zero_l. }
  pose proof (Row 0%nat) as R0. change (3 * 0)%nat with 0%nat in *. rewrite R0 by lia. cbn [Nat.eqb].
  unfold Qfull. rewrite Hen. rewrite getM3_put by (mdim; lia). cbn [Nat.eqb andb].
  rewrite getM3_put by (mdim; lia). cbn [Nat.eqb andb]. rewrite getM3_ofM3, mtr_tr. ring3.
Qed.
