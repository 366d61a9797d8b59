(** C87: only the ratios of the noise parameters matter. The filter. *)
From Coq Require Import Reals ZArith List Bool Lia Lra.
From Verif Require Import Res Vec3 Mat LieGroup MatInv Psd Spec SpecState LieSO3 LieSEK LieThms RobotState StateProofs StateHist StateMisc Inekf SpecFilter
  InekfProofs InekfThms Imu Propagation SpecProp Blk PsdBlk PropagationProofs PropagationThms PropagationLog Queue VelCorr LegCorr SpecCorr ImuNeg VelThms LegThms LegAdd LegLoop LegUpd LegHist ConvLeg ConvFilter CorrInno Estimator SpecScale.
Import ListNotations.
Local Open Scope R_scope.

(** ** covariances *)
(** rows of the base coordinates do not see the biases *)
Definition base_only (A : mat) : Prop := forall i j, (i < nr A - 6)%nat -> (nc A - 6 <= j < nc A)%nat -> ent A i j = 0.
Lemma sc_conj c A P P' : base_only A -> nc A = nr P -> nr P = nc P -> scaled_cov c P P' -> scaled_cov c (A *M P *M mT A) (A *M P' *M mT A).
Proof.
  intros HA D1 D2 (S1 & S2 & S3). split; [reflexivity|]. split; [reflexivity|]. intros i j Hi Hj. mdim.
  rewrite !ent_mult. mdim. rewrite S2, <- D2, <- D1. rewrite <- sum_scal_l. apply sum_ext. intros l Hl.
  rewrite !ent_T by (mdim; lia). destruct (Nat.lt_ge_cases l (nc A - 6)) as [H|H].
  - rewrite !ent_mult. rewrite <- Rmult_assoc. f_equal. rewrite <- sum_scal_l. apply sum_ext. intros r Hr.
    destruct (Nat.lt_ge_cases r (nc A - 6)) as [H'|H'].
    + rewrite S3 by lia. ring.
    + rewrite (HA i r) by lia. ring.
  - rewrite (HA j l) by lia. ring.
Qed.
Lemma sc_plus c P P' Q Q' : nr P = nr Q -> nc P = nc Q -> scaled_cov c P P' -> scaled_cov c Q Q' -> scaled_cov c (P +M Q) (P' +M Q').
Proof.
  intros D1 D2 (S1 & S2 & S3) (T1 & T2 & T3). split; [mdim|]. split; [mdim|]. intros i j Hi Hj. mdim.
  rewrite !ent_plus by (mdim; lia). rewrite S3, T3 by lia. ring.
Qed.
Lemma sc_full c P : scaled_cov c P (c *S P).
Proof. split; [reflexivity|]. split; [reflexivity|]. intros i j _ _. apply ent_scl. Qed.
Lemma sc_mask c m x P P' : (forall i, (i < nr P - 6)%nat -> m i = false) -> nr P = nc P -> scaled_cov c P P' -> scaled_cov c (mask_diag m x P) (mask_diag m x P').
Proof.
  intros Hm D (S1 & S2 & S3). split; [mdim; rewrite ?nr_mask; auto|]. split; [rewrite ?nc_mask; auto|]. intros i j Hi Hj. rewrite nr_mask in Hi. rewrite nc_mask in Hj.
  rewrite !ent_mask by lia. rewrite !Hm by lia. cbn [orb]. apply S3; lia.
Qed.
Lemma base_AdB K X : base_only (AdB K X).
Proof.
  intros i j Hi Hj. change (nr (AdB K X)) with (9 + 3 * K)%nat in *. change (nc (AdB K X)) with (9 + 3 * K)%nat in *.
  rewrite ent_AdB by lia. destruct (Nat.ltb_spec j (3 + 3 * K)); [lia|]. rewrite andb_false_r. destruct (Nat.eqb_spec i j); [lia|reflexivity].
Qed.
Lemma sc_to_right c K e X P P' : nr P = (9 + 3 * K)%nat -> nc P = (9 + 3 * K)%nat -> scaled_cov c P P' -> scaled_cov c (to_right K e X P) (to_right K e X P').
Proof. intros. destruct e; cbn [to_right]; [|auto]. apply sc_conj; [apply base_AdB|mdim|congruence|auto]. Qed.
Lemma sc_from_right c K e X P P' : nr P = (9 + 3 * K)%nat -> nc P = (9 + 3 * K)%nat -> scaled_cov c P P' -> scaled_cov c (from_right K e X P) (from_right K e X P').
Proof. intros. destruct e; cbn [from_right]; [|auto]. apply sc_conj; [apply base_AdB|mdim|congruence|auto]. Qed.
Lemma sc_drop c i P P' : (i + 3 <= nr P - 6)%nat -> nr P = nc P -> scaled_cov c P P' -> scaled_cov c (drop_rc i 3 P) (drop_rc i 3 P').
Proof.
  intros Hi D (S1 & S2 & S3). split; [mdim|]. split; [mdim|]. intros a b Ha Hb. mdim.
  rewrite !ent_drop by lia. apply S3; unfold skip; [destruct (Nat.ltb_spec a i)|destruct (Nat.ltb_spec b i)]; lia.
Qed.

(** ** the Kalman update *)
Definition bias_free (H : mat) : Prop := forall i j, (i < nr H)%nat -> (nc H - 6 <= j < nc H)%nat -> ent H i j = 0.
Lemma minv_scl c S : c <> 0 -> minv (c *S S) = match minv S with Some T => Some (/ c *S T) | None => None end.
Proof.
  intros Hc. destruct (minv S) as [T|] eqn:E.
  - destruct (minv_some _ _ E) as (E1 & E2 & E3 & E4 & E5). apply (minv_unique _ _ (nr S)); mdim.
    rewrite mmult_scl_l, mmult_scl_r, E5. apply mat_ext; mdim. intros i j Hi Hj. rewrite !ent_scl. field. auto.
  - destruct (Nat.eq_dec (nr S) (nc S)) as [D|D].
    + apply minv_none_iff; [mdim|]. intros (B & B1 & B2 & B3 & B4). mdim. apply (proj1 (minv_none_iff S D)) in E. apply E. exists (c *S B). mdim. repeat (split; [congruence|]). split.
      * rewrite mmult_scl_r. rewrite mmult_scl_l in B3. exact B3.
      * rewrite mmult_scl_l. rewrite mmult_scl_r in B4. exact B4.
    + unfold minv. mdim. destruct (Nat.eqb_spec (nr S) (nc S)); [congruence|reflexivity].
Qed.
Section Filter.
Variables (c : R) (Hc : c <> 0) (k : R) (Hk : c = k * k).

Lemma mask_gain K m P P' H : nr P = (9 + 3 * K)%nat -> nc P = (9 + 3 * K)%nat -> nc H = (9 + 3 * K)%nat -> nr H = m -> bias_free H -> scaled_cov c P P' ->
  mask_diag (biasm K) c4 P' *M mT H = c *S (mask_diag (biasm K) c4 P *M mT H).
Proof.
  intros D1 D2 D3 D4 BF (S1 & S2 & S3).
  apply mat_ext; mdim; rewrite ?nr_mask; auto. intros i j Hi Hj. mdim. change (nr (mask_diag (biasm K) c4 P')) with (nr P') in Hi. rewrite ent_scl, !ent_mult. change (nc (mask_diag (biasm K) c4 P')) with (nc P'). change (nc (mask_diag (biasm K) c4 P)) with (nc P). rewrite S2.
  rewrite <- sum_scal_l. apply sum_ext. intros l Hl. rewrite !ent_T by (mdim; lia).
  destruct (Nat.lt_ge_cases l (3 + 3 * K)) as [H0|H0].
  - rewrite !ent_mask by lia. unfold biasm. destruct (Nat.leb_spec (3 + 3 * K) l); [lia|]. destruct (Nat.leb_spec (3 + 3 * K) i); cbn [orb].
    + destruct (Nat.eqb_spec i l); [lia|]. ring.
    + rewrite S3 by lia. ring.
  - rewrite (BF j l) by lia. ring.
Qed.
Lemma CR_scale K m Z H N s s' e : wf K s -> sen s = false -> measurement K m Z H N -> bias_free H -> scaled c s s' ->
  match CorrectRightInvariant Z H N s e, CorrectRightInvariant Z H (c *S N) s' e with
  | Ok a, Ok b => scaled c a b
  | Fail a, Fail b => a = b
  | _, _ => False
  end.
Proof.
  intros W En M BF [SC ES]. pose proof M as (M1 & M2 & M3 & M4 & M5 & M6). pose proof W as [HX HT1 HT2 HP1 HP2]. pose proof SC as (C1 & C2 & C3).
  assert (sX s' = sX s /\ sTheta s' = sTheta s /\ sen s' = false) as (EX & ET & En') by (rewrite ES; auto).
  assert (wf K s') as W' by (split; rewrite ?EX, ?ET; auto; congruence).
  assert (measurement K m Z H (c *S N)) as M' by (repeat split; mdim).
  rewrite (CorrectRight_eq K m Z H N) by auto. rewrite (CorrectRight_eq K m Z H (c *S N)) by auto. cbv zeta. rewrite EX, ET. rewrite (to_right_work K e (sX s) (sen s)) by auto. rewrite (to_right_work K e (sX s) (sen s')) by congruence.
  rewrite En, En'. cbn [work_cov].
  set (W1 := to_right K e (sX s) (sP s)). set (W2 := to_right K e (sX s) (sP s')).
  assert (scaled_cov c W1 W2) as SW by (apply sc_to_right; auto).
  destruct (to_right_dim K e (sX s) (sP s) HP1 HP2) as [D1 D2]. fold W1 in D1, D2. pose proof SW as (SW1 & SW2 & _).
  set (P1 := mask_diag (biasm K) c4 W1). set (P2 := mask_diag (biasm K) c4 W2).
  assert (P2 *M mT H = c *S (P1 *M mT H)) as EPH by (apply (mask_gain K m); auto).
  assert (Sof P2 H (c *S N) = c *S Sof P1 H N) as ESo.
  { unfold Sof. rewrite <- !mmult_assoc, EPH, mmult_scl_r. apply mat_ext; mdim. intros i j Hi Hj. mdim. rewrite ent_scl, !ent_plus by (mdim; lia). rewrite !ent_scl. ring. }
  rewrite ESo, minv_scl by auto. destruct (minv (Sof P1 H N)) as [Si|] eqn:ESi; [|reflexivity].
  assert (Gof P2 H (/ c *S Si) = Gof P1 H Si) as ->.
  { unfold Gof. rewrite EPH, mmult_scl_l, mmult_scl_r. apply mat_ext; mdim. intros i j Hi Hj. rewrite !ent_scl. field. auto. }
  destruct (minv_some _ _ ESi) as (_ & I1 & I2 & _). assert (nr (Sof P1 H N) = m) as E0 by (unfold Sof; mdim). rewrite E0 in I1, I2.
  set (G := Gof P1 H Si). assert (nr G = (9 + 3 * K)%nat /\ nc G = m) as [G1 G2] by (unfold G, Gof, P1; mdim; rewrite ?nr_mask; auto).
  assert (nr P1 = (9 + 3 * K)%nat /\ nc P1 = (9 + 3 * K)%nat) as [E1 E2] by (unfold P1; rewrite nr_mask, nc_mask; auto).
  assert (scaled_cov c P1 P2) as SP.
  { apply sc_mask; auto; [|congruence]. intros i Hi. rewrite D1 in Hi. unfold biasm. destruct (Nat.leb_spec (3 + 3 * K) i); [lia|reflexivity]. }
  assert (scaled_cov c (jos (9 + 3 * K) P1 H N G) (jos (9 + 3 * K) P2 H (c *S N) G)) as SJ.
  { unfold jos. apply sc_plus; mdim.
    - apply sc_conj; auto; try (mdim; congruence); try congruence. intros i j Hi Hj. mdim. rewrite ent_minus by (mdim; lia). rewrite ent_eye by lia. destruct (Nat.eqb_spec i j); [lia|].
      rewrite ent_mult. rewrite sum_zero; [ring|]. intros l Hl. rewrite (BF l j) by lia. ring.
    - rewrite mmult_scl_r, mmult_scl_l. apply sc_full. }
  split.
  - cbn [sP set_P]. apply sc_from_right; [rewrite nr_mask; reflexivity|rewrite nc_mask; reflexivity|].
    apply sc_mask; auto. intros i Hi. change (nr (jos (9 + 3 * K) P1 H N G)) with (9 + 3 * K)%nat in Hi. unfold yawm. destruct (Nat.eqb_spec i (5 + 3 * K)); [lia|reflexivity].
  - rewrite ES. reflexivity.
Qed.

(** ** transport along [scaled] *)
Lemma scaled_time s s' x : scaled c s s' -> scaled c (set_time s x) (set_time s' x).
Proof. intros [A B]. split; [exact A|]. rewrite B. reflexivity. Qed.
Lemma scaled_wf K s s' : scaled c s s' -> wf K s -> wf K s'.
Proof. intros [(A1 & A2 & _) B] [H1 H2 H3 H4 H5]. rewrite B. split; cbn [sX sTheta sP set_P set_Qc]; auto; congruence. Qed.
Lemma scaled_wfp K s s' : scaled c s s' -> wfp K s -> wfp K s'.
Proof. intros S [H1 H2 H3 H4 H5]. pose proof (scaled_wf K s s' S H1). destruct S as [_ B]. split; auto; rewrite B; cbn [stype sQc set_P set_Qc]; mdim. Qed.
Lemma scaled_fields s s' : scaled c s s' -> sX s' = sX s /\ sTheta s' = sTheta s /\ stype s' = stype s /\ scmap s' = scmap s /\ st s' = st s /\ stprop s' = stprop s /\ sbav s' = sbav s /\ sen s' = sen s /\ sslip s' = sslip s /\ sQc s' = c *S sQc s.
Proof. intros [_ B]. rewrite B. repeat split. Qed.

(** ** the velocity correction *)
Definition mul_vc (v : vel_corr) : vel_corr := mkVC (vc_queue v) (vc_err v) (c *ms vc_cov v) (vc_thr v) (vc_R v) (vc_scale v).
Lemma bias_free_vel K : (2 <= K)%nat -> bias_free (vel_H K).
Proof.
  intros HK i j Hi Hj. change (nr (vel_H K)) with 3%nat in Hi. change (nc (vel_H K)) with (9 + 3 * K)%nat in Hj. unfold vel_H. rewrite ent_mk by lia.
  destruct (Nat.eqb_spec j (3 + i)); [lia|reflexivity].
Qed.
Lemma scl_ofM3 M : ofM3 (c *ms M) = c *S ofM3 M.
Proof. apply mat_ext; try reflexivity. intros i j Hi Hj. change (i < 3)%nat in Hi. change (j < 3)%nat in Hj. rewrite ent_scl, !ent_ofM3 by auto. destruct i as [|[|[|]]], j as [|[|[|]]]; try lia; reflexivity. Qed.
Lemma conj_scl A M B : A *m (c *ms M) *m B = c *ms (A *m M *m B).
Proof. destruct A, M, B. ring3. Qed.
Lemma vel_update_scale K v m s s' : wfp K s -> sen s = false -> scaled c s s' ->
  match vel_update v m s, vel_update (mul_vc v) m s' with
  | Ok a, Ok b => scaled c a b /\ sen a = false
  | Fail a, Fail b => a = b
  | _, _ => False
  end.
Proof.
  intros W En S. rewrite (vel_update_eq K) by auto. rewrite (vel_update_eq K (mul_vc v)) by (eapply scaled_wfp; eauto).
  cbn [vc_err vc_R vc_scale vc_cov mul_vc]. destruct (scaled_fields s s' S) as (EX & _).
  assert (vel_N s' (c *ms vc_cov v) = c *S vel_N s (vc_cov v)) as -> by (unfold vel_N; rewrite EX, conj_scl; apply scl_ofM3).
  assert (forall y, vel_innovation s' y = vel_innovation s y) as -> by (intros y; unfold vel_innovation; rewrite EX; reflexivity).
  assert (wf K (set_time s (vm_t m))) as W' by (destruct W as [[] ? ? ? ?]; split; auto).
  set (y := vc_R v *v (vc_scale v *s vm_v m)).
  pose proof (CR_scale K 3 _ _ _ _ _ (vc_err v) W' En (vel_measurement K s y (vc_cov v)) (bias_free_vel K (wp_K _ _ W)) (scaled_time s s' (vm_t m) S)) as H.
  destruct (CorrectRightInvariant _ _ _ (set_time s (vm_t m)) _) as [a|] eqn:EC; [|exact H]. destruct (CorrectRightInvariant _ _ _ (set_time s' (vm_t m)) _) as [b|]; [|exact H].
  split; [exact H|]. destruct (thm_right_group K 3 _ _ _ _ _ _ W' (vel_measurement _ _ _ _) EC) as [_ (_ & _ & _ & _ & _ & _ & M7 & _)]. cbn [sen set_time] in M7. congruence.
Qed.
Lemma vel_Correct_scale K v s s' sched : wfp K s -> sen s = false -> scaled c s s' ->
  match vel_Correct v s sched, vel_Correct (mul_vc v) s' sched with
  | Ok (b, v1, s1), Ok (b', v2, s2) => b' = b /\ v2 = mul_vc v1 /\ scaled c s1 s2 /\ sen s1 = false
  | Fail a, Fail b => a = b
  | _, _ => False
  end.
Proof.
  intros W En S. destruct (scaled_fields s s' S) as (_ & _ & _ & _ & _ & Ht & _). unfold vel_Correct. change (vc_queue (mul_vc v)) with (vc_queue v).
  unfold get_propagate_time. rewrite Ht. change (vc_thr (mul_vc v)) with (vc_thr v).
  destruct (vc_queue v ++ hd_batch sched) as [|m q]; [auto|].
  destruct (of_opt (stprop s) BadRead) as [tp|]; [|reflexivity]. cbn [bind].
  destruct (not_past tp (vm_t m)); [auto|].
  destruct (if too_old (vc_thr v) tp (vm_t m) then _ else _) as [[r q'] bs]. destruct r as [m'|]; [|auto].
  pose proof (vel_update_scale K v m' s s' W En S) as H. destruct (vel_update v m' s), (vel_update (mul_vc v) m' s'); cbn [bind]; auto.
Qed.

(** ** the propagation *)
Definition mul_ip (gb ab : M3) (ip : imu_prop) : imu_prop :=
  mkIP (ip_queue ip) (ip_err ip) (ip_static ip) (ip_init_size ip) (ip_use_ori ip) (ip_Rib ip) (c *ms ip_gyro_cov ip) (c *ms ip_accel_cov ip)
    gb ab (ip_bg0 ip) (ip_ba0 ip) (ip_enable ip) (ip_t ip) (ip_bias_init ip) (ip_vec ip) (ip_prev ip).
Lemma base_Phi K e X w a dt : base_only (Phi_of K e false X w a dt).
Proof.
  intros i j Hi Hj. rewrite nr_Phi in Hi. rewrite nc_Phi in Hj.
  assert (S K <= j / 3)%nat as Hd by (apply Nat.div_le_lower_bound; lia). unfold Phi_of. cbv zeta. destruct e; unfold blk; rewrite ent_mk by lia; unfold fL, fR; destruct (Nat.leb_spec (j / 3) K); try lia;
    (assert (j mod 3 < 3)%nat as Hm by (apply Nat.mod_upper_bound; lia)); (assert (i mod 3 < 3)%nat as Hm' by (apply Nat.mod_upper_bound; lia));
    destruct (i mod 3)%nat as [|[|[|]]], (j mod 3)%nat as [|[|[|]]]; try lia; reflexivity.
Qed.
Lemma put_scl A B i j : nr B <> 0%nat -> put (c *S A) i j (c *S B) = c *S put A i j B.
Proof.
  intros _. apply mat_ext; try reflexivity. intros a b Ha Hb. mdim. rewrite ent_scl. unfold put. rewrite !ent_mk by (mdim; auto). mdim. rewrite !ent_scl. destruct (_ && _)%bool; reflexivity.
Qed.
Lemma Qfull_scale K gb ab ip Q : ip_enable ip = false -> Qfull K (mul_ip gb ab ip) (c *S Q) = c *S Qfull K ip Q.
Proof. intros E. unfold Qfull. cbn [ip_enable ip_gyro_cov ip_accel_cov mul_ip]. rewrite E. rewrite !scl_ofM3, !put_scl by discriminate. reflexivity. Qed.
Lemma next_scale K gb ab ip s s' w a dt : wfp K s -> ip_enable ip = false -> scaled c s s' -> scaled_cov c (next_cov K ip s w a dt) (next_cov K (mul_ip gb ab ip) s' w a dt).
Proof.
  intros W E S. destruct (scaled_fields s s' S) as (EX & _ & _ & _ & _ & _ & _ & _ & _ & EQ). destruct S as [SC _]. pose proof W as [[_ _ _ HP1 HP2] _ _ HQ1 HQ2]. unfold next_cov. cbn [ip_enable mul_ip]. rewrite E.
  unfold prior_cov. cbn [ip_err ip_enable mul_ip]. rewrite E, EX, EQ, Qfull_scale by auto.
  apply sc_mask; [|mdim|].
  - intros i Hi. mdim. unfold biasm. destruct (Nat.leb_spec (3 + 3 * K) i); [lia|reflexivity].
  - apply sc_plus; mdim.
    + apply sc_conj; [apply base_Phi|mdim|congruence|auto].
    + rewrite mmult_scl_r, mmult_scl_l. match goal with |- scaled_cov c (?d *S ?M) (?d *S (c *S ?M)) => assert (d *S (c *S M) = c *S (d *S M)) as -> by (apply mat_ext; try reflexivity; intros; rewrite !ent_scl; ring) end. apply sc_full.
Qed.
Lemma Propagate_scale K gb ab ip s s' t0 : wfp K s -> stprop s = Some t0 -> ip_enable ip = false -> scaled c s s' ->
  match Propagate ip s, Propagate (mul_ip gb ab ip) s' with
  | Ok (b, ip1, s1), Ok (b', ip2, s2) => b' = b /\ ip2 = mul_ip gb ab ip1 /\ scaled c s1 s2
  | Fail a, Fail b => a = b
  | _, _ => False
  end.
Proof.
  intros W Ht E S. destruct (scaled_fields s s' S) as (EX & ET & E1 & E2 & E3 & E4 & E5 & E6 & E7 & E8). unfold Propagate. cbn [ip_queue mul_ip]. destruct (ip_queue ip) as [|x q]; [auto|]. cbn [ip_prev mul_ip].
  destruct (ip_prev ip) as [m|]; [|reflexivity]. cbn [of_opt bind].
  set (ip1 := set_prev (set_queue ip q) x).
  change (set_prev (set_queue (mul_ip gb ab ip) q) x) with (mul_ip gb ab ip1).
  pose proof (step_eq K ip1 m s t0 W Ht) as H1. assert (stprop s' = Some t0) as Ht' by congruence.
  pose proof (step_eq K (mul_ip gb ab ip1) m s' t0 (scaled_wfp K s s' S W) Ht') as H2. cbv zeta in H1, H2. rewrite H1, H2. cbn [bind].
  split; [reflexivity|]. split; [reflexivity|].
  assert (gbias s' = gbias s /\ abias s' = abias s) as [-> ->] by (unfold gbias, abias; rewrite ET; auto).
  change (rate (mul_ip gb ab ip1) m (gbias s)) with (rate ip1 m (gbias s)). change (accel (mul_ip gb ab ip1) m (gbias s) (abias s)) with (accel ip1 m (gbias s) (abias s)).
  split; cbn [sP].
  - apply next_scale; auto.
  - rewrite EX, ET, E1, E2, E5, E6, E7, E8. reflexivity.
Qed.

(** ** the legged correction *)
Definition mul_lc (l : leg_corr) : leg_corr := mkLC (lc_queue l) (lc_err l) (k * lc_enc_std l) (k * lc_kin_std l) (c *ms lc_contact_cov l) (lc_thr l) (lc_map l).
Lemma tracks_scaled l h s s' ids : tracks l h s ids -> scaled c s s' -> tracks (mul_lc l) h s' ids.
Proof.
  intros [A B C D E F G] S. destruct (scaled_fields s s' S) as (_ & _ & _ & E2 & _). split; auto; [eapply scaled_wfp; eauto|congruence].
Qed.
Lemma del_PQ h s P Q i h1 s1 h2 s2 : del_aug_state h s i = Ok (h1, s1) -> del_aug_state h (set_P (set_Qc s Q) P) i = Ok (h2, s2) -> h2 = h1 /\ s2 = set_P (set_Qc s1 (sQc s2)) (sP s2).
Proof.
  unfold del_aug_state, dimX. cbn [scmap sX set_P set_Qc]. intros H1 H2.
  apply bind_inv in H1. destruct H1 as ([h0 m0] & E0 & H1). rewrite E0 in H2. cbn [bind] in H2.
  apply bind_inv in H1. destruct H1 as ([] & E1 & H1). rewrite E1 in H2. cbn [bind] in H2.
  cbn [sX set_cmap set_P set_Qc] in *.
  apply bind_inv in H1. destruct H1 as (X0 & E2 & H1). rewrite E2 in H2. cbn [bind] in H2.
  unfold del_aug_cov, del_aug_noise_cov in *. cbn [sP set_X set_cmap set_P set_Qc] in *.
  apply bind_inv in H1. destruct H1 as (s3 & E3 & H1). apply bind_inv in E3. destruct E3 as (ki & E3 & E4). rewrite E3 in H2. cbn [bind] in H2.
  apply bind_inv in E4. destruct E4 as (P3 & E4 & E5). injection E5 as <-.
  apply bind_inv in H2. destruct H2 as (s4 & E5 & H2). apply bind_inv in E5. destruct E5 as (P4 & E5 & E6). injection E6 as <-.
  rewrite E3 in H1. cbn [bind] in H1, H2. cbn [sQc set_P set_X set_cmap set_Qc] in *.
  apply bind_inv in H1. destruct H1 as (s5 & H1 & H1'). apply bind_inv in H1. destruct H1 as (Q1 & E6 & H1). injection H1 as <-. injection H1' as <- <-.
  apply bind_inv in H2. destruct H2 as (s6 & H2 & H2'). apply bind_inv in H2. destruct H2 as (Q2 & E7 & H2). injection H2 as <-. injection H2' as <- <-. split; reflexivity.
Qed.
Lemma drop_scl i m A : drop_rc i m (c *S A) = c *S drop_rc i m A.
Proof. apply mat_ext; try reflexivity. intros a b Ha Hb. rewrite ent_scl. unfold drop_rc in *. mdim. rewrite !ent_mk by auto. apply ent_scl. Qed.
Lemma remove_scale l h s s' ids id a : tracks l h s ids -> scaled c s s' -> lc_map l id = Some a ->
  exists h1 s1 s2, remove_leg (h, s, lc_map l) id = Ok (h1, s1, mupd (lc_map l) id None) /\
    remove_leg (h, s', lc_map l) id = Ok (h1, s2, mupd (lc_map l) id None) /\ scaled c s1 s2 /\ sen s1 = sen s /\
    tracks (lc_set_map l (mupd (lc_map l) id None)) h1 s1 (remove_nth (age a ids) ids).
Proof.
  intros T S E. pose proof (tracks_scaled l h s s' ids T S) as T'.
  destruct (remove_leg_ok l h s ids id a T E) as (h1 & s1 & R1 & T1 & K1 & P1 & X1 & Q1).
  destruct (remove_leg_ok (mul_lc l) h s' ids id a T' E) as (h2 & s2 & R2 & _ & _ & P2 & X2 & Q2). cbn [lc_map mul_lc] in R2.
  destruct S as [SC ES]. assert (h2 = h1 /\ s2 = set_P (set_Qc s1 (sQc s2)) (sP s2)) as [-> E2].
  { rewrite ES in R2. unfold remove_leg in R1, R2. apply bind_inv in R1. destruct R1 as (z & Ez & R1). rewrite Ez in R2. cbn [bind] in R2.
    apply bind_inv in R1. destruct R1 as (i & Ei & R1). rewrite Ei in R2. cbn [bind] in R2.
    apply bind_inv in R1. destruct R1 as ([h3 s3] & R1 & R1'). injection R1' as <- <-.
    apply bind_inv in R2. destruct R2 as ([h4 s4] & R2 & R2'). injection R2' as <- <-.
    exact (del_PQ _ _ _ _ _ _ _ _ _ R1 R2). }
  exists h1, s1, s2. split; [exact R1|]. split; [exact R2|]. split; [|split; [|exact T1]].
  - destruct (tracks_contact l h s ids id a T E) as (_ & HA & _). pose proof (tr_wf _ _ _ _ T) as [[_ _ _ HP1 HP2] _ _ _ _]. split.
    + rewrite P1, P2. apply sc_drop; auto; [lia|congruence].
    + rewrite E2 at 1. rewrite Q2, Q1, ES. cbn [sQc set_P set_Qc]. rewrite drop_scl. reflexivity.
  - apply K1.
Qed.
Lemma removes_scale : forall rem l h s s' ids, tracks l h s ids -> scaled c s s' -> NoDup rem -> (forall id, In id rem -> lc_map l id <> None) ->
  exists h1 s1 s2 m1 ids1, foldM remove_leg (h, s, lc_map l) rem = Ok (h1, s1, m1) /\ foldM remove_leg (h, s', lc_map l) rem = Ok (h1, s2, m1) /\ scaled c s1 s2 /\ sen s1 = sen s /\
    tracks (lc_set_map l m1) h1 s1 ids1.
Proof.
  induction rem as [|id rem IH]; intros l h s s' ids T S ND Hin; cbn [foldM].
  - exists h, s, s', (lc_map l), ids. repeat (split; [auto|]). destruct l; exact T.
  - apply NoDup_cons_iff in ND. destruct ND as [HN1 ND]. destruct (lc_map l id) as [a|] eqn:Ea; [|exfalso; apply (Hin id); [left; auto|auto]].
    destruct (remove_scale l h s s' ids id a T S Ea) as (h1 & s1 & s2 & E1 & E2 & S1 & N1 & T1). rewrite E1, E2. cbn [bind].
    destruct (IH (lc_set_map l (mupd (lc_map l) id None)) h1 s1 s2 _ T1 S1) as (h3 & s3 & s4 & m3 & ids3 & F1 & F2 & F3 & F4 & F5); auto.
    { cbn [lc_map lc_set_map]. intros j Hj. unfold mupd. destruct (Nat.eqb_spec j id); [subst; tauto|]. apply Hin. right; auto. }
    cbn [lc_map lc_set_map] in *. exists h3, s3, s4, m3, ids3. repeat (split; [auto; congruence|]). exact F5.
Qed.

Lemma base_augF e K pose : (2 <= K)%nat -> base_only (augF e K pose).
Proof.
  intros HK i j Hi Hj. change (nr (augF e K pose)) with (12 + 3 * K)%nat in Hi. change (nc (augF e K pose)) with (9 + 3 * K)%nat in Hj. unfold augF. rewrite ent_mk by lia.
  destruct (Nat.ltb_spec i (3 + 3 * K)).
  - destruct (Nat.eqb_spec i j); [lia|reflexivity].
  - destruct (Nat.ltb_spec i (6 + 3 * K)).
    + destruct (Nat.ltb_spec j 3); [lia|]. destruct (Nat.eqb_spec j (6 + (i - (3 + 3 * K)))); [lia|reflexivity].
    + lia.
Qed.
Lemma mget_scl M i j : (i < 3)%nat -> (j < 3)%nat -> mget (c *ms M) i j = c * mget M i j.
Proof. intros. destruct i as [|[|[|]]], j as [|[|[|]]]; try lia; reflexivity. Qed.
Lemma add_scale l h s s' ids id pose cov : tracks l h s ids -> scaled c s s' -> lc_map l id = None ->
  exists h1 s1 s2, add_leg l (h, s, lc_map l, sP s) (id, pose, cov) = Ok (h1, s1, mupd (lc_map l) id (Some (length h)), sP s1) /\
    add_leg (mul_lc l) (h, s', lc_map l, sP s') (id, pose, c *ms cov) = Ok (h1, s2, mupd (lc_map l) id (Some (length h)), sP s2) /\
    scaled c s1 s2 /\ sen s1 = sen s /\
    tracks (lc_set_map l (mupd (lc_map l) id (Some (length h)))) h1 s1 (ids ++ [length h]).
Proof.
  intros T S E. pose proof (tracks_scaled l h s s' ids T S) as T'.
  destruct (add_leg_ok l h s ids id pose cov T E) as (h1 & s1 & R1 & T1 & K1 & P1 & X1 & _).
  destruct (add_leg_ok (mul_lc l) h s' ids id pose (c *ms cov) T' E) as (h2 & s2 & R2 & _ & _ & P2 & X2 & _).
  cbn [lc_map mul_lc lc_err] in R2, P2. pose proof (scaled_fields s s' S) as (EX & ET & Ety & Ecm & _ & _ & _ & _ & _ & EQ). pose proof S as [SC ES].
  pose proof (tr_wf _ _ _ _ T) as [[HX HT1 HT2 HP1 HP2] HK Hty HQ1 HQ2].
  assert (h2 = h1 /\ s2 = set_P (set_Qc s1 (c *S sQc s1)) (sP s2)) as [-> E2].
  { unfold add_leg in R1, R2.
    assert (get_position s' = get_position s /\ get_rotation s' = get_rotation s /\ dimX s' = dimX s) as (Ep' & Er' & Ed') by (unfold get_position, get_rotation, dimX; rewrite EX; auto).
    rewrite Ep', Er', Ety, Ed' in R2.
    apply bind_inv in R1. destruct R1 as (p & Ep & R1). rewrite Ep in R2. cbn [bind] in R2.
    apply bind_inv in R1. destruct R1 as (r & Er & R1). rewrite Er in R2. cbn [bind] in R2.
    apply bind_inv in R1. destruct R1 as ([F G] & E1 & R1). apply bind_inv in R2. destruct R2 as ([F' G'] & E2 & R2).
    apply bind_inv in R1; destruct R1 as (A1 & B1 & R1); apply bind_inv in R2; destruct R2 as (A1' & B1' & R2).
    apply bind_inv in R1; destruct R1 as (A2 & B2 & R1); apply bind_inv in R2; destruct R2 as (A2' & B2' & R2).
    apply bind_inv in R1; destruct R1 as (A3 & B3 & R1); apply bind_inv in R2; destruct R2 as (A3' & B3' & R2).
    apply bind_inv in R1; destruct R1 as (A4 & B4 & R1); apply bind_inv in R2; destruct R2 as (A4' & B4' & R2).
    apply bind_inv in R1; destruct R1 as (A5 & B5 & R1); apply bind_inv in R2; destruct R2 as (A5' & B5' & R2).
    cbn [heap_new] in R1, R2. cbn [lc_contact_cov mul_lc] in R2.
    apply bind_inv in R1. destruct R1 as ([s3 i] & R1 & R1'). apply bind_inv in R2. destruct R2 as ([s4 i'] & R2 & R2').
    apply bind_inv in R1'. destruct R1' as (h3 & E3 & R1'). apply bind_inv in R2'. destruct R2' as (h4 & E4 & R2').
    assert (h1 = h3 /\ s1 = s3 /\ A5 = sP s1) as (-> & -> & E5) by (injection R1'; auto). assert (h2 = h4 /\ s2 = s4 /\ A5' = sP s2) as (-> & -> & E5') by (injection R2'; auto).
    assert (nr (sP s3) = (12 + 3 * length ids + 6)%nat /\ nc (sP s3) = (12 + 3 * length ids + 6)%nat) as [N1 N2] by (rewrite P1, nr_aug_cov, nc_aug_cov; lia).
    assert (nr (sP s4) = (12 + 3 * length ids + 6)%nat /\ nc (sP s4) = (12 + 3 * length ids + 6)%nat) as [N3 N4] by (rewrite P2, nr_aug_cov, nc_aug_cov; lia).
    match type of R1 with add_aug_state _ ?u _ ?N _ = _ => destruct (add_aug_state_ok h s ids u A5 N (tracks_st _ _ _ _ T)) as (Qa & sa & Ea & _ & QA1 & QA2 & QA3 & QA4); [rewrite E5; lia|rewrite E5; lia|] end.
    rewrite Ea in R1. injection R1 as <- <-.
    match type of R2 with add_aug_state _ ?u _ ?N _ = _ => destruct (add_aug_state_ok h s' ids u A5' N (tracks_st _ _ _ _ T')) as (Qb & sb & Eb & _ & QB1 & QB2 & QB3 & QB4); [rewrite ET, E5'; lia|rewrite ET, E5'; lia|] end.
    rewrite Eb in R2. injection R2 as <- <-. rewrite E3 in E4. injection E4 as ->. split; [reflexivity|].
    assert (Qb = c *S Qa) as EQab.
    { rewrite ET in *. apply mat_ext; mdim; try congruence. intros a b Ha Hb. rewrite QB1 in Ha. rewrite QB2 in Hb. rewrite ent_scl, QA3, QB3 by auto. unfold inwin.
      repeat match goal with |- context [(?a <=? ?b)%nat] => destruct (Nat.leb_spec a b) | |- context [(?a <? ?b)%nat] => destruct (Nat.ltb_spec a b) end; cbn [andb]; try lia;
        rewrite ?EQ, ?ent_scl; try ring; try (apply mget_scl; lia). }
    rewrite QB4, QA4, EQab, ES. reflexivity. }
  exists h1, s1, s2. split; [exact R1|]. split; [exact R2|]. split; [|split; [|exact T1]].
  - split; [|exact E2]. rewrite P1, P2, EX. unfold aug_cov. apply sc_plus; [reflexivity|reflexivity| |].
    + apply sc_conj; [apply base_augF; auto|rewrite HP1; reflexivity|congruence|exact SC].
    + rewrite scl_ofM3, mmult_scl_r, mmult_scl_l. apply sc_full.
  - apply K1.
Qed.
Definition mul_new (n : nat * V3 * M3) : nat * V3 * M3 := let '(id, p, N) := n in (id, p, c *ms N).
Lemma adds_scale : forall new l h s s' ids, tracks l h s ids -> scaled c s s' -> NoDup (map nid new) -> (forall id, In id (map nid new) -> lc_map l id = None) ->
  exists h1 s1 s2 m1 ids1, foldM (add_leg l) (h, s, lc_map l, sP s) new = Ok (h1, s1, m1, sP s1) /\
    foldM (add_leg (mul_lc l)) (h, s', lc_map l, sP s') (map mul_new new) = Ok (h1, s2, m1, sP s2) /\ scaled c s1 s2 /\ sen s1 = sen s /\
    tracks (lc_set_map l m1) h1 s1 ids1.
Proof.
  induction new as [|[[id f] N] new IH]; intros l h s s' ids T S ND Hin; cbn [foldM map].
  - exists h, s, s', (lc_map l), ids. repeat (split; [auto|]). destruct l; exact T.
  - cbn [map nid fst] in ND, Hin. apply NoDup_cons_iff in ND. destruct ND as [HN1 ND].
    destruct (add_scale l h s s' ids id f N T S (Hin id (or_introl eq_refl))) as (h1 & s1 & s2 & E1 & E2 & S1 & N1 & T1). rewrite E1. cbn [mul_new]. rewrite E2. cbn [bind].
    destruct (IH (lc_set_map l (mupd (lc_map l) id (Some (length h)))) h1 s1 s2 _ T1 S1) as (h3 & s3 & s4 & m3 & ids3 & F1 & F2 & F3 & F4 & F5); auto.
    { cbn [lc_map lc_set_map]. intros j Hj. unfold mupd. destruct (Nat.eqb_spec j id) as [->|]; [exfalso; auto|]. apply Hin. right; auto. }
    cbn [lc_map lc_set_map] in *. exists h3, s3, s4, m3, ids3. split; [exact F1|]. split; [exact F2|]. split; [exact F3|]. split; [congruence|exact F5].
Qed.
Definition mul_foot (f : foot) : foot := mkFoot (ft_k f) (ft_pos f) (c *ms ft_cov f).
Lemma kin_scale l o : kin_cov (mul_lc l) o = c *ms kin_cov l o.
Proof. unfold kin_cov. cbn [lc_enc_std lc_kin_std mul_lc]. rewrite Hk. generalize (lo_J o *m mtr (lo_J o)), (lc_enc_std l), (lc_kin_std l). intros [] a b. ring3. Qed.
Lemma feet_scale l h : forall legs id, feet (mul_lc l) h id legs = map mul_foot (feet l h id legs).
Proof.
  induction legs as [|g legs IH]; intros id; cbn [feet]; [reflexivity|]. rewrite IH, map_app. f_equal. change (contact_of (mul_lc l) h id) with (contact_of l h id).
  destruct (lo_contact g); [|reflexivity]. destruct (contact_of l h id); [|reflexivity]. cbn [map]. rewrite kin_scale. reflexivity.
Qed.
Lemma added_scale l : forall legs id, added (mul_lc l) id legs = map mul_new (added l id legs).
Proof.
  induction legs as [|g legs IH]; intros id; cbn [added]; [reflexivity|]. rewrite IH, map_app. f_equal. change (lc_map (mul_lc l) id) with (lc_map l id).
  destruct (lo_contact g), (lc_map l id); cbn [map mul_new]; rewrite ?kin_scale; reflexivity.
Qed.
Lemma removed_scale l : forall legs id, removed (mul_lc l) id legs = removed l id legs.
Proof. induction legs as [|g legs IH]; intros id; cbn [removed]; [reflexivity|]. rewrite IH. reflexivity. Qed.
Lemma nth_foot o i : (i < length o)%nat -> nth i (map mul_foot o) no_foot = mul_foot (nth i o no_foot).
Proof. intros H. rewrite (nth_indep _ no_foot (mul_foot no_foot)) by (rewrite map_length; auto). apply map_nth. Qed.
Lemma stack_scale K X o : leg_Z X (map mul_foot o) = leg_Z X o /\ leg_H K (map mul_foot o) = leg_H K o /\ leg_N X (map mul_foot o) = c *S leg_N X o.
Proof.
  assert (forall i, (i < 3 * length o)%nat -> (i / 3 < length o)%nat) as Hd by (intros i Hi; apply Nat.div_lt_upper_bound; lia).
  split; [|split]; (apply mat_ext; [unfold leg_Z, leg_H, leg_N; mdim; rewrite ?map_length; reflexivity|unfold leg_Z, leg_H, leg_N; mdim; rewrite ?map_length; reflexivity|]); intros i j Hi Hj.
  - unfold leg_Z in *. mdim. rewrite map_length in *. rewrite !ent_mk by lia. rewrite nth_foot by auto. reflexivity.
  - unfold leg_H in *. mdim. rewrite map_length in *. rewrite !ent_mk by lia. rewrite nth_foot by auto. reflexivity.
  - unfold leg_N in *. mdim. rewrite map_length in *. rewrite ent_scl. rewrite !ent_mk by lia. rewrite nth_foot by auto. cbn [ft_cov mul_foot]. rewrite conj_scl. destruct (Nat.eqb (i / 3) (j / 3)); [|ring].
    apply mget_scl; apply Nat.mod_upper_bound; lia.
Qed.
Lemma bias_free_leg l h s ids legs : tracks l h s ids -> bias_free (leg_H (2 + length ids) (feet l h 0 legs)).
Proof.
  intros T i j Hi Hj. unfold leg_H in *. mdim. rewrite ent_mk by lia.
  set (f := nth (i / 3) (feet l h 0 legs) no_foot).
  assert (In f (feet l h 0 legs)) as Hf by (apply nth_In; apply Nat.div_lt_upper_bound; lia).
  assert (i mod 3 < 3)%nat by (apply Nat.mod_upper_bound; lia).
  apply feet_in in Hf. destruct Hf as (a & o & _ & _ & Hf & _). unfold contact_of in Hf. destruct (lc_map l (0 + a)) as [b|] eqn:Eb; [|discriminate].
  destruct (tracks_contact l h s ids _ b T Eb) as (_ & E2 & E3). rewrite E3, Nat2Z.id in Hf. injection Hf as Hf.
  destruct (Nat.eqb_spec j (9 + 3 * ft_k f + i mod 3)); [lia|]. destruct (Nat.eqb_spec j (6 + i mod 3)); [lia|reflexivity].
Qed.
Lemma leg_update_scale l h m s s' ids : tracks l h s ids -> sen s = false -> scaled c s s' ->
  match leg_update l h m s, leg_update (mul_lc l) h m s' with
  | Ok (l1, h1, s1), Ok (l2, h2, s2) => l2 = mul_lc l1 /\ h2 = h1 /\ scaled c s1 s2 /\ sen s1 = false
  | Fail a, Fail b => a = b
  | _, _ => False
  end.
Proof.
  intros T En S. pose proof (tracks_scaled l h s s' ids T S) as T'. pose proof (scaled_fields s s' S) as (EX & _).
  rewrite (leg_update_eq l h m s ids T). rewrite (leg_update_eq (mul_lc l) h m s' ids T').
  cbv zeta. cbn [lc_err lc_map mul_lc]. rewrite feet_scale, removed_scale, added_scale, EX, map_length.
  set (o := feet l h 0 (lm_legs m)). destruct (stack_scale (2 + length ids) (sX s) o) as (-> & -> & ->).
  pose proof (tr_wf _ _ _ _ T) as [W HK Hty HQ1 HQ2].
  assert (wf (2 + length ids) (set_time s (lm_t m))) as W' by (destruct W; split; auto).
  pose proof (CR_scale _ _ _ _ _ _ _ (lc_err l) W' En (leg_measurement (2 + length ids) (sX s) o) (bias_free_leg l h s ids (lm_legs m) T) (scaled_time s s' (lm_t m) S)) as HC. fold o in HC.
  assert (match (if Nat.eqb (length o) 0 then Ok (set_time s (lm_t m)) else CorrectRightInvariant (leg_Z (sX s) o) (leg_H (2 + length ids) o) (leg_N (sX s) o) (set_time s (lm_t m)) (lc_err l)),
                (if Nat.eqb (length o) 0 then Ok (set_time s' (lm_t m)) else CorrectRightInvariant (leg_Z (sX s) o) (leg_H (2 + length ids) o) (c *S leg_N (sX s) o) (set_time s' (lm_t m)) (lc_err l)) with
          | Ok a, Ok b => scaled c a b | Fail a, Fail b => a = b | _, _ => False end) as HC'.
  { destruct (Nat.eqb (length o) 0); [apply scaled_time; auto|exact HC]. }
  destruct (if Nat.eqb (length o) 0 then Ok (set_time s (lm_t m)) else _) as [s1|] eqn:E1;
    destruct (if Nat.eqb (length o) 0 then Ok (set_time s' (lm_t m)) else _) as [s1'|]; try contradiction; [|exact HC']. cbn [bind].
  assert (leg_corrected (2 + length ids) l h m s s1) as HL. { red. fold o. destruct (Nat.eqb (length o) 0); [congruence|exact E1]. }
  destruct (corrected_tracks l h m s s1 ids T HL) as [T1 M1].
  destruct (removes_scale (removed l 0 (lm_legs m)) l h s1 s1' ids T1 HC' (removed_nodup _ _ _)) as (h2 & s2 & s2' & m2 & ids2 & F1 & F2 & F3 & F4 & F5).
  { intros id Hid. apply removed_spec in Hid. destruct Hid as (? & _ & _ & _ & H). exact H. }
  rewrite F1, F2. cbn [bind].
  destruct (remove_legs_ok l (removed l 0 (lm_legs m)) h s1 ids T1 (removed_nodup _ _ _)) as (h2' & s2'' & m2' & ids2' & F1' & Fm & _).
  { intros id Hid. apply removed_spec in Hid. destruct Hid as (? & _ & _ & _ & H). exact H. }
  rewrite F1 in F1'. injection F1' as <- <- <-.
  destruct (adds_scale (added l 0 (lm_legs m)) (lc_set_map l m2) h2 s2 s2' ids2 F5 F3 (added_nodup _ _ _)) as (h3 & s3 & s3' & m3 & ids3 & G1 & G2 & G3 & G4 & G5).
  { intros id Hid. apply added_spec in Hid. destruct Hid as (? & _ & _ & _ & H). cbn [lc_map lc_set_map]. rewrite Fm. unfold mupds. rewrite H. destruct (in_dec _ _ _); reflexivity. }
  cbn [lc_map lc_set_map] in G1, G2. change (add_leg (mul_lc (lc_set_map l m2))) with (add_leg (mul_lc l)) in G2. change (add_leg (lc_set_map l m2)) with (add_leg l) in G1.
  rewrite G1, G2. cbn [bind]. split; [reflexivity|]. split; [reflexivity|]. split; [exact G3|]. destruct M1 as (_ & _ & _ & _ & _ & _ & M7 & _). cbn [sen set_time] in M7. congruence.
Qed.
Lemma leg_Correct_scale l h s s' ids sched : tracks l h s ids -> sen s = false -> scaled c s s' ->
  match leg_Correct l h s sched, leg_Correct (mul_lc l) h s' sched with
  | Ok (b, l1, h1, s1), Ok (b', l2, h2, s2) => b' = b /\ l2 = mul_lc l1 /\ h2 = h1 /\ scaled c s1 s2 /\ sen s1 = false
  | Fail a, Fail b => a = b
  | _, _ => False
  end.
Proof.
  intros T En S. pose proof (scaled_fields s s' S) as (_ & _ & _ & _ & _ & Ht & _). unfold leg_Correct. change (lc_queue (mul_lc l)) with (lc_queue l).
  unfold get_propagate_time. rewrite Ht. change (lc_thr (mul_lc l)) with (lc_thr l).
  destruct (lc_queue l ++ hd_batch sched) as [|m q]; [auto|].
  destruct (of_opt (stprop s) BadRead) as [tp|]; [|reflexivity]. cbn [bind].
  destruct (if too_old (lc_thr l) tp (lm_t m) then _ else _) as [[r q'] bs]. destruct r as [m'|]; [|auto].
  change (lc_set_queue (mul_lc l) (q' ++ concat bs)) with (mul_lc (lc_set_queue l (q' ++ concat bs))).
  pose proof (leg_update_scale _ h m' s s' ids (tracks_queue _ (q' ++ concat bs) _ _ _ T) En S) as H.
  destruct (leg_update _ h m' s) as [[[? ?] ?]|], (leg_update _ h m' s') as [[[? ?] ?]|]; cbn [bind]; auto.
Qed.
End Filter.
