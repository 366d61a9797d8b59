(** Proofs: corrections and propagation commute with a mirror. *)
From Coq Require Import Reals ZArith List Bool Lia Lra.
From Verif Require Import Res Vec3 Mat LieGroup MatInv Psd Spec SpecState LieSO3 LieSEK LieThms RobotState StateProofs StateHist StateMisc Inekf SpecFilter
  InekfProofs InekfThms Imu Propagation SpecProp Blk PsdBlk PropagationProofs PropagationThms PropagationLog Queue VelCorr LegCorr SpecCorr ImuNeg VelThms LegThms LegAdd LegLoop LegUpd LegHist ConvLeg ConvFilter
  Estimator SpecEst SpecConv YawFilter YawSteps SpecMirror Mirror.
Import ListNotations.
Local Open Scope R_scope.

Section M.
Variable p : plane.
Definition one (i : nat) : R := 1.
Lemma one_sign : is_sign one. Proof. intros i. unfold one. ring. Qed.
Lemma signs_sub s t A i j a b s' t' : (forall k, (k < a)%nat -> s (i + k)%nat = s' k) -> (forall k, (k < b)%nat -> t (j + k)%nat = t' k) -> (i + a <= nr A)%nat -> (j + b <= nc A)%nat ->
  sub (signs s t A) i j a b = signs s' t' (sub A i j a b).
Proof.
  intros H1 H2 D1 D2. apply mat_ext; try reflexivity. intros x y Hx Hy. change (x < a)%nat in Hx. change (y < b)%nat in Hy.
  rewrite ent_sub by auto. rewrite !ent_signs by (mdim; lia). rewrite ent_sub by auto. rewrite H1, H2 by auto. reflexivity.
Qed.
Lemma getV3_axi K v b t : (b < 3 + K)%nat -> nr v = (9 + 3 * K)%nat \/ (nr v = 3 + 3 * K)%nat /\ (b < 1 + K)%nat -> (0 < nc v)%nat -> t 0%nat = 1 ->
  getV3 (signs (Dg p K) t v) (3 * b) 0 = if Nat.eqb b 0 || Nat.eqb b (K + 1) then axi p (getV3 v (3 * b) 0) else pol p (getV3 v (3 * b) 0).
Proof.
  intros Hb Hr Hc Ht. apply V3_ext. intros a Ha. rewrite vget_getV3 by auto. rewrite ent_signs by lia. rewrite Dg_blk, Ht by auto. unfold eps.
  destruct (_ || _); [rewrite vget_axi by auto|rewrite vget_pol by auto]; rewrite vget_getV3 by auto; ring.
Qed.
Lemma expSEK_mir K v t : nr v = (3 + 3 * K)%nat -> nc v = 1%nat -> t 0%nat = 1 -> expSEK (signs (Dg p K) t v) = mirX p (expSEK v).
Proof.
  intros H1 H2 Ht. unfold expSEK. rewrite nr_signs, H1. replace ((3 + 3 * K - 3) / 3)%nat with K by (replace (3 + 3 * K - 3)%nat with (K * 3)%nat by lia; rewrite Nat.div_mul; lia).
  rewrite mirX_sek. pose proof (getV3_axi K v 0 t ltac:(lia) ltac:(lia) ltac:(lia) Ht) as E0. cbn [Nat.eqb orb] in E0. change (3 * 0)%nat with 0%nat in E0. rewrite E0. rewrite exp_axi, jl_axi. apply aff_ext. intros k Hk.
  replace (3 + 3 * k)%nat with (3 * (1 + k))%nat by lia. rewrite (getV3_axi K v (1 + k) t) by (auto; lia). destruct (Nat.eqb_spec (1 + k) 0); [lia|]. destruct (Nat.eqb_spec (1 + k) (K + 1)); [lia|]. cbn [orb]. apply mflip_mv.
Qed.
Lemma mir_wf K s : wf K s -> wf K (mirrored p s).
Proof. intros [A B C D E]. split; auto. apply mirX_SEK. exact A. Qed.
Lemma mir_wfp K s : wfp K s -> wfp K (mirrored p s).
Proof. intros [A B C D E]. split; auto using mir_wf. Qed.
Lemma to_right_mir K e X P : SEK K X -> nr P = (9 + 3 * K)%nat -> nc P = (9 + 3 * K)%nat ->
  to_right K e (mirX p X) (signs (Dg p K) (Dg p K) P) = signs (Dg p K) (Dg p K) (to_right K e X P).
Proof.
  intros HX H1 H2. destruct e; cbn [to_right]; [|reflexivity]. rewrite (AdB_mir p K) by auto. rewrite signs_T. rewrite !signs_mult by (auto using Dg_sign; mdim). reflexivity.
Qed.
Lemma from_right_mir K e X P : SEK K X -> nr P = (9 + 3 * K)%nat -> nc P = (9 + 3 * K)%nat ->
  from_right K e (mirX p X) (signs (Dg p K) (Dg p K) P) = signs (Dg p K) (Dg p K) (from_right K e X P).
Proof.
  intros HX H1 H2. destruct e; cbn [from_right]; [|reflexivity]. rewrite (mirX_inv p K), (AdB_mir p K) by (auto; apply SEK_inv; auto). rewrite signs_T. rewrite !signs_mult by (auto using Dg_sign; mdim). reflexivity.
Qed.
Lemma sT_is_sign : is_sign (sT_sign p).
Proof. intros i. unfold sT_sign. destruct (i <? 3)%nat; rewrite ?Rmult_opp_opp; apply sgn2. Qed.

Lemma CR_mir K m r Z H N s e : wf K s -> measurement K m Z H N -> is_sign r -> signs r (Dg p K) H = H ->
  CorrectRightInvariant (signs r one Z) H (signs r r N) (mirrored p s) e = rmap (mirrored p) (CorrectRightInvariant Z H N s e).
Proof.
  intros W M Hr HH. pose proof M as (M1 & M2 & M3 & M4 & M5 & M6). pose proof W as [HX HT1 HT2 HP1 HP2].
  assert (measurement K m (signs r one Z) H (signs r r N)) as M' by (repeat split; mdim).
  rewrite (CorrectRight_eq K m) by (auto using mir_wf). rewrite (CorrectRight_eq K m Z H N s) by auto. cbv zeta.
  change (sen (mirrored p s)) with (sen s). change (sX (mirrored p s)) with (mirX p (sX s)). change (sTheta (mirrored p s)) with (signs (sT_sign p) one (sTheta s)).
  assert (sP (mirrored p s) = signs (Dg p K) (Dg p K) (sP s)) as -> by (cbn [sP mirrored]; rewrite HP1; reflexivity).
  pose proof (Dg_sign p K) as HD.
  assert (work_cov K (sen s) (signs (Dg p K) (Dg p K) (sP s)) = signs (Dg p K) (Dg p K) (work_cov K (sen s) (sP s))) as ->.
  { unfold work_cov. destruct (sen s); [reflexivity|]. rewrite signs_mask by auto. reflexivity. }
  destruct (work_cov_dim K (sen s) (sP s)) as [W1 W2]. rewrite HP1 in W1. rewrite HP2 in W2. rewrite to_right_mir by auto.
  destruct (to_right_dim K e (sX s) _ W1 W2) as [D1 D2]. set (P1 := to_right K e (sX s) (work_cov K (sen s) (sP s))) in *.
  assert (forall A B, nr A = (9 + 3 * K)%nat -> signs (Dg p K) r (A *M B) = signs (Dg p K) r (A *M B)) as _ by reflexivity.
  assert (mT H = signs (Dg p K) r (mT H)) as HHT by (rewrite <- HH at 1; apply signs_T).
  assert (Sof (signs (Dg p K) (Dg p K) P1) H (signs r r N) = signs r r (Sof P1 H N)) as ->.
  { unfold Sof. rewrite HHT. rewrite <- HH at 1. rewrite !signs_mult by (auto; mdim). rewrite signs_plus by mdim. rewrite <- HHT. reflexivity. }
  rewrite signs_minv by (auto; unfold Sof; mdim; congruence). destruct (minv (Sof P1 H N)) as [Si|] eqn:ESi; cbn [option_map]; [|reflexivity]. cbn [rmap].
  destruct (minv_some _ _ ESi) as (_ & I1 & I2 & _). assert (nr (Sof P1 H N) = m) as E0 by (unfold Sof; mdim). rewrite E0 in I1, I2.
  assert (Gof (signs (Dg p K) (Dg p K) P1) H (signs r r Si) = signs (Dg p K) r (Gof P1 H Si)) as ->.
  { unfold Gof. rewrite HHT. rewrite !signs_mult by (auto; mdim). rewrite <- HHT. reflexivity. }
  set (G := Gof P1 H Si). assert (nr G = (9 + 3 * K)%nat /\ nc G = m) as [G1 G2] by (unfold G, Gof; mdim; auto).
  assert (signs (Dg p K) r G *M signs r one Z = signs (Dg p K) one (G *M Z)) as EGZ by (apply signs_mult; auto; mdim).
  assert (dX_of K (signs (Dg p K) r G) (signs r one Z) = mirX p (dX_of K G Z)) as ->.
  { unfold dX_of. rewrite EGZ. rewrite (signs_sub _ _ _ 0 0 (3 + 3 * K) 1 (Dg p K) one) by (auto; mdim; lia). apply expSEK_mir; reflexivity. }
  assert (dTheta_of K (signs (Dg p K) r G) (signs r one Z) = signs (sT_sign p) one (dTheta_of K G Z)) as ->.
  { unfold dTheta_of. rewrite EGZ. apply signs_sub; auto; mdim; try lia. intros k Hk. unfold sT_sign. destruct (Nat.ltb_spec k 3).
    - replace (3 + 3 * K + k)%nat with (3 * (K + 1) + k)%nat by lia. rewrite Dg_blk by auto. unfold eps. rewrite Nat.eqb_refl, orb_true_r. ring.
    - replace (3 + 3 * K + k)%nat with (3 * (K + 2) + (k - 3))%nat by lia. rewrite Dg_blk by lia. unfold eps. destruct (Nat.eqb_spec (K + 2) 0), (Nat.eqb_spec (K + 2) (K + 1)); try lia. cbn [orb]. ring. }
  set (dX := dX_of K G Z). assert (SEK K dX) as HdX by apply dX_SEK. rewrite (mirX_mult p K) by auto. set (X1 := dX *M sX s). assert (SEK K X1) as HX1 by (apply SEK_mult; auto).
  assert (jos (9 + 3 * K) (signs (Dg p K) (Dg p K) P1) H (signs r r N) (signs (Dg p K) r G) = signs (Dg p K) (Dg p K) (jos (9 + 3 * K) P1 H N G)) as ->.
  { unfold jos. assert (meye (9 + 3 * K) -M signs (Dg p K) r G *M H = signs (Dg p K) (Dg p K) (meye (9 + 3 * K) -M G *M H)) as ->.
    { rewrite <- HH at 1. rewrite signs_mult by (auto; mdim). rewrite <- (signs_eye (Dg p K) (9 + 3 * K) HD) at 1. apply signs_minus; mdim. }
    rewrite !signs_T. rewrite !signs_mult by (auto; mdim). apply signs_plus; mdim. }
  set (J := jos (9 + 3 * K) P1 H N G). assert (nr J = (9 + 3 * K)%nat /\ nc J = (9 + 3 * K)%nat) as [J1 J2] by (unfold J, jos; mdim; auto).
  rewrite <- signs_mask by auto. rewrite from_right_mir by (rewrite ?nr_mask, ?nc_mask; auto).
  unfold mirrored, set_P, set_theta, set_X. cbn [stype sX sTheta sP scmap st stprop sQc sbav sen sslip]. do 2 f_equal.
  - rewrite <- signs_plus by (try exact HT1; try exact HT2). f_equal. set (T := dTheta_of K G Z). assert (nr T = 6%nat /\ nc T = 1%nat) as [T1 T2] by (split; reflexivity).
    apply mat_ext; try reflexivity. intros i j Hi Hj. change (i < nr T)%nat in Hi. change (j < nc T)%nat in Hj. change (fun _ : nat => 1) with one. rewrite ent_signs by auto. rewrite !ent_put by (mdim; lia). rewrite ent_signs by auto.
    destruct (inwin _ _ _ && inwin _ _ _); [rewrite !ent_O; ring|reflexivity].
  - assert (nr (from_right K e X1 (mask_diag (yawm K) c4 J)) = (9 + 3 * K)%nat) as -> by (destruct e; cbn [from_right]; [reflexivity|rewrite nr_mask; exact J1]). reflexivity.
Qed.

(** ** velocity *)
Definition mvc (c : vel_corr) : vel_corr := mkVC (map (mir_vel p) (vc_queue c)) (vc_err c) (mflip p (vc_cov c)) (vc_thr c) (mflip p (vc_R c)) (vc_scale c).
Definition r3 (i : nat) : R := sgn p i.
Lemma r3_sign : is_sign r3. Proof. intros i. apply sgn2. Qed.
Lemma vel_H_mir K : (1 <= K)%nat -> signs r3 (Dg p K) (vel_H K) = vel_H K.
Proof.
  intros HK. apply mat_ext; try reflexivity. intros i j Hi Hj. change (i < 3)%nat in Hi. change (j < 9 + 3 * K)%nat in Hj. rewrite ent_signs by auto. unfold vel_H. rewrite ent_mk by auto.
  destruct (Nat.eqb_spec j (3 + i)) as [->|]; [|ring]. replace (3 + i)%nat with (3 * 1 + i)%nat by lia. rewrite Dg_blk by auto. unfold eps. destruct (Nat.eqb_spec 1 0), (Nat.eqb_spec 1 (K + 1)); try lia. cbn [orb]. unfold r3.
  transitivity (sgn p i * sgn p i); [ring|apply sgn2].
Qed.
Lemma ofV3_mir v : ofV3 (pol p v) = signs r3 one (ofV3 v).
Proof. apply mat_ext; try reflexivity. intros i j Hi Hj. change (i < 3)%nat in Hi. change (j < 1)%nat in Hj. assert (j = 0)%nat as -> by lia. rewrite ent_signs by (mdim; cbn; lia). rewrite !ent_ofV3 by auto. rewrite vget_pol by auto. unfold r3, one. ring. Qed.
Lemma ofM3_mir A : ofM3 (mflip p A) = signs r3 r3 (ofM3 A).
Proof. apply mat_ext; try reflexivity. intros i j Hi Hj. change (i < 3)%nat in Hi. change (j < 3)%nat in Hj. rewrite ent_signs by (mdim; cbn; lia). rewrite !ent_ofM3 by auto. rewrite mget_mflip by auto. reflexivity. Qed.
Lemma vel_update_mir K c m s : wfp K s -> vel_update (mvc c) (mir_vel p m) (mirrored p s) = rmap (mirrored p) (vel_update c m s).
Proof.
  intros W. rewrite (vel_update_eq K) by (apply mir_wfp; auto). rewrite (vel_update_eq K c m s) by auto. cbn [vc_R vc_scale vc_cov vc_err mvc vm_v vm_t mir_vel].
  pose proof W as [[HX HT1 HT2 HP1 HP2] HK Hty HQ1 HQ2]. rewrite pol_scl, mflip_mv. set (y := vc_R c *v (vc_scale c *s vm_v m)).
  assert (vel_innovation (mirrored p s) (pol p y) = signs r3 one (vel_innovation s y)) as ->.
  { unfold vel_innovation. change (sX (mirrored p s)) with (mirX p (sX s)). rewrite (mirX_rot p K), (mirX_col p K) by (auto; lia). rewrite mflip_mv, pol_sub. apply ofV3_mir. }
  assert (vel_N (mirrored p s) (mflip p (vc_cov c)) = signs r3 r3 (vel_N s (vc_cov c))) as ->.
  { unfold vel_N. change (sX (mirrored p s)) with (mirX p (sX s)). rewrite (mirX_rot p K) by auto. rewrite mflip_T, !mflip_mul. apply ofM3_mir. }
  change (set_time (mirrored p s) (vm_t m)) with (mirrored p (set_time s (vm_t m))).
  apply (CR_mir K 3); auto using r3_sign.
  - split; auto.
  - apply vel_measurement.
  - apply vel_H_mir. lia.
Qed.

(** ** propagation *)
Lemma mn_l A B : mneg A *m B = mneg (A *m B). Proof. destruct A, B. ring3. Qed.
Lemma mn_r A B : A *m mneg B = mneg (A *m B). Proof. destruct A, B. ring3. Qed.
Lemma mn_s c A : c *ms mneg A = mneg (c *ms A). Proof. destruct A. ring3. Qed.
Lemma mn_p A B : mneg A +m mneg B = mneg (A +m B). Proof. destruct A, B. ring3. Qed.
Lemma mn_m A B : mneg A -m mneg B = mneg (A -m B). Proof. destruct A, B. ring3. Qed.
Lemma mn_n A : mneg (mneg A) = A. Proof. destruct A. ring3. Qed.
Ltac push := rewrite ?mflip_T, ?skew_axi, ?skew_pol, ?mflip_neg; repeat (rewrite ?mflip_mul, ?mflip_scl, ?mflip_add, ?mflip_sub, ?mflip_neg, ?mn_l, ?mn_r, ?mn_s, ?mn_p, ?mn_m).
Lemma P25_mir w a dt G G' : Phi25L_of (axi p w) (pol p a) dt (mflip p G) (mflip p G') = mflip p (mneg (Phi25L_of w a dt G G')).
Proof.
  unfold Phi25L_of. cbv zeta. rewrite vnorm_axi. destruct (Rlt_dec _ _); push; reflexivity.
Qed.
Lemma P35_mir w a dt G G' : Phi35L_of (axi p w) (pol p a) dt (mflip p G) (mflip p G') = mflip p (mneg (Phi35L_of w a dt G G')).
Proof.
  unfold Phi35L_of. cbv zeta. rewrite vnorm_axi. destruct (Rlt_dec _ _); push; reflexivity.
Qed.
Lemma eps_0 K : eps K 0 = -1. Proof. reflexivity. Qed.
Lemma eps_mid K b : b <> 0%nat -> b <> (K + 1)%nat -> eps K b = 1.
Proof. intros. unfold eps. destruct (Nat.eqb_spec b 0), (Nat.eqb_spec b (K + 1)); try lia. reflexivity. Qed.
Lemma eps_g K : eps K (K + 1) = -1. Proof. unfold eps. rewrite Nat.eqb_refl, orb_true_r. reflexivity. Qed.
Ltac epss := rewrite ?eps2, ?eps_0, ?eps_g; repeat rewrite eps_mid by lia.
Ltac sclr := cbv beta iota; rewrite ?Rmult_1_l, ?Rmult_1_r; try replace (-1 * -1) with 1 by ring; rewrite ?ms_1, ?ms_0, ?mflip_0, ?ms_0, ?ms_m1.
Lemma fL_mir K en a dt G0 G1 G2 P25 P35 i j : (2 <= K)%nat -> (i < 3 + K)%nat -> (j < 3 + K)%nat ->
  fL K en (pol p a) dt (mflip p G0) (mflip p G1) (mflip p G2) (mflip p (mneg P25)) (mflip p (mneg P35)) i j = (eps K i * eps K j) *ms mflip p (fL K en a dt G0 G1 G2 P25 P35 i j).
Proof.
  intros HK Hi Hj. unfold fL. rewrite !mflip_mv. push. destruct (Nat.leb_spec j K).
  - destruct (Nat.eqb_spec i j) as [->|Hne]; [epss; sclr; reflexivity|].
    destruct i as [|[|[|i]]]; try (sclr; reflexivity); destruct j as [|[|j]]; try (sclr; reflexivity); epss; sclr; push; rewrite ?mn_n; reflexivity.
  - destruct en; [|sclr; reflexivity]. destruct (Nat.eqb_spec i j) as [->|Hne]; [epss; sclr; rewrite mflip_id; reflexivity|].
    destruct (Nat.eqb_spec j (K + 1)) as [->|Hne'].
    + destruct i as [|[|[|i]]]; try (sclr; reflexivity); epss; sclr; push; reflexivity.
    + destruct i as [|[|[|i]]]; try (sclr; reflexivity); epss; sclr; push; reflexivity.
Qed.
Lemma skew_g : mflip p (mneg (skew g_)) = skew g_. Proof. rewrite <- skew_pol, pol_g. reflexivity. Qed.
Lemma fR_mir K en a dt X G0 G1 G2 P25 P35 i j : (2 <= K)%nat -> SEK K X -> (i < 3 + K)%nat -> (j < 3 + K)%nat ->
  fR K en (pol p a) dt (mirX p X) (mflip p G0) (mflip p G1) (mflip p G2) (mflip p (mneg P25)) (mflip p (mneg P35)) i j = (eps K i * eps K j) *ms mflip p (fR K en a dt X G0 G1 G2 P25 P35 i j).
Proof.
  intros HK HX Hi Hj. unfold fR. rewrite (mirX_rot p K) by auto. rewrite !(mirX_col p K X) by (auto; lia). destruct (Nat.leb_spec j K).
  - destruct (Nat.eqb_spec i j) as [->|Hne]; [epss; sclr; rewrite mflip_id; reflexivity|].
    destruct i as [|[|[|i]]]; try (sclr; reflexivity); destruct j as [|[|j]]; try (sclr; reflexivity); epss; sclr; rewrite <- ?mflip_scl, ?mflip_id; try reflexivity.
    + rewrite mflip_scl, <- skew_g at 1. rewrite mflip_scl, mflip_neg, <- mn_s. reflexivity.
    + rewrite mflip_scl, <- skew_g at 1. rewrite mflip_scl, mflip_neg, <- mn_s. reflexivity.
  - destruct en; [|sclr; reflexivity]. destruct (Nat.eqb_spec i j) as [->|Hne]; [epss; sclr; rewrite mflip_id; reflexivity|].
    destruct (Nat.eqb_spec j (K + 1)) as [->|Hne'].
    + destruct i as [|[|[|i]]].
      * epss; sclr; push; reflexivity.
      * rewrite <- (pol_g p) at 1. push. rewrite !mflip_mv. rewrite !pol_scl, !pol_add. push. epss. sclr. push. rewrite ?mn_n. reflexivity.
      * rewrite <- (pol_g p) at 1. push. rewrite !mflip_mv. rewrite !pol_scl, !pol_add. push. epss. sclr. push. rewrite ?mn_n. reflexivity.
      * destruct (Nat.leb_spec (S (S (S i))) K); [|sclr; reflexivity]. rewrite (mirX_col p K X) by (auto; lia). push. epss. sclr. push. rewrite ?mn_n. reflexivity.
    + destruct i as [|[|[|i]]]; try (sclr; reflexivity); epss; sclr; push; reflexivity.
Qed.
Lemma Phi_mir K e en X w a dt : (2 <= K)%nat -> SEK K X -> Phi_of K e en (mirX p X) (axi p w) (pol p a) dt = signs (Dg p K) (Dg p K) (Phi_of K e en X w a dt).
Proof.
  intros HK HX. unfold Phi_of. rewrite axi_scl, axi_neg, exp_axi, jl_axi, g2_axi, g3_axi, !mflip_T, P25_mir, P35_mir.
  destruct e; rewrite signs_blk; apply blk_ext; intros i j Hi Hj; [apply fL_mir|apply fR_mir]; auto.
Qed.
Lemma NG_mir K e X : SEK K X -> NG K e (mirX p X) = signs (Dg p K) (Dg p K) (NG K e X).
Proof. intros HX. destruct e; unfold NG; [symmetry; apply signs_eye, Dg_sign|apply AdB_mir; auto]. Qed.
Definition mir_ip (ip : imu_prop) : imu_prop :=
  mkIP (map (mir_imu p) (ip_queue ip)) (ip_err ip) (ip_static ip) (ip_init_size ip) (ip_use_ori ip) (mflip p (ip_Rib ip)) (mflip p (ip_gyro_cov ip)) (mflip p (ip_accel_cov ip))
    (mflip p (ip_gyro_bias_cov ip)) (mflip p (ip_accel_bias_cov ip)) (axi p (ip_bg0 ip)) (pol p (ip_ba0 ip)) (ip_enable ip) (pol p (ip_t ip))
    (ip_bias_init ip) (map (fun v => (axi p (fst v), pol p (snd v))) (ip_vec ip)) (option_map (mir_imu p) (ip_prev ip)).
Lemma put_diag_mir K Q b M r : r = (3 * b)%nat -> (b < 3 + K)%nat -> nr Q = (9 + 3 * K)%nat -> nc Q = (9 + 3 * K)%nat ->
  put (signs (Dg p K) (Dg p K) Q) r r (ofM3 (mflip p M)) = signs (Dg p K) (Dg p K) (put Q r r (ofM3 M)).
Proof.
  intros -> Hb H1 H2. apply mat_ext; try reflexivity. intros i j Hi Hj. change (i < nr Q)%nat in Hi. change (j < nc Q)%nat in Hj. rewrite ent_signs by auto. rewrite !ent_put by (mdim; cbn; lia).
  change (nr (ofM3 (mflip p M))) with 3%nat. change (nc (ofM3 (mflip p M))) with 3%nat. change (nr (ofM3 M)) with 3%nat. change (nc (ofM3 M)) with 3%nat.
  destruct (inwin (3 * b) 3 i && inwin (3 * b) 3 j) eqn:E; [|apply ent_signs; auto]. apply andb_true_iff in E. destruct E as [E1 E2]. unfold inwin in *. apply andb_true_iff in E1, E2.
  destruct E1 as [E1 E3], E2 as [E2 E4]. apply Nat.leb_le in E1, E2. apply Nat.ltb_lt in E3, E4. destruct (le_lt_dec 3 (i - 3 * b)); [lia|]. destruct (le_lt_dec 3 (j - 3 * b)); [lia|].
  rewrite !ent_ofM3 by auto. rewrite mget_mflip by auto. replace i with (3 * b + (i - 3 * b))%nat at 3 by lia. replace j with (3 * b + (j - 3 * b))%nat at 3 by lia. rewrite !Dg_blk by auto.
  transitivity ((eps K b * eps K b) * (sgn p (i - 3 * b) * sgn p (j - 3 * b) * mget M (i - 3 * b) (j - 3 * b))); [rewrite eps2; ring|ring].
Qed.
Lemma Qfull_mir K ip Q : (2 <= K)%nat -> nr Q = (9 + 3 * K)%nat -> nc Q = (9 + 3 * K)%nat -> Qfull K (mir_ip ip) (signs (Dg p K) (Dg p K) Q) = signs (Dg p K) (Dg p K) (Qfull K ip Q).
Proof.
  intros HK H1 H2. unfold Qfull. cbn [ip_gyro_cov ip_accel_cov ip_enable ip_gyro_bias_cov ip_accel_bias_cov mir_ip].
  rewrite (put_diag_mir K Q 0), (put_diag_mir K _ 1) by (mdim; lia). destruct (ip_enable ip); [|reflexivity].
  rewrite (put_diag_mir K _ (K + 1)), (put_diag_mir K _ (K + 2)) by (mdim; lia). reflexivity.
Qed.
Lemma gbias_mir K s : wf K s -> gbias (mirrored p s) = axi p (gbias s) /\ abias (mirrored p s) = pol p (abias s).
Proof.
  intros [HX HT1 HT2 HP1 HP2]. unfold gbias, abias. cbn [sTheta mirrored]. split; apply V3_ext; intros a Ha; rewrite vget_getV3 by auto; rewrite ent_signs by lia; [rewrite vget_axi by auto|rewrite vget_pol by auto];
    rewrite vget_getV3 by auto; unfold sT_sign; destruct (Nat.ltb_spec (0 + a) 3), (Nat.ltb_spec (3 + a) 3); try lia.
  - cbn [Nat.add]. unfold one. ring.
  - unfold one. replace (3 + a - 3)%nat with a by lia. ring.
Qed.
Lemma rates_mir K ip m s : wf K s -> rate (mir_ip ip) (mir_imu p m) (gbias (mirrored p s)) = axi p (rate ip m (gbias s)) /\
  accel (mir_ip ip) (mir_imu p m) (gbias (mirrored p s)) (abias (mirrored p s)) = pol p (accel ip m (gbias s) (abias s)).
Proof.
  intros W. destruct (gbias_mir K s W) as [-> ->]. unfold accel, rate. cbn [ip_Rib ip_t mir_ip i_w i_a mir_imu]. rewrite mflip_mv, !mflip_mva, axi_sub. split; [reflexivity|].
  rewrite cross_ap, cross_ap, !pol_sub. reflexivity.
Qed.
Lemma stepX_mir K X w a dt : (2 <= K)%nat -> SEK K X -> stepX K (mirX p X) (axi p w) (pol p a) dt = mirX p (stepX K X w a dt).
Proof.
  intros HK HX. unfold stepX. rewrite mirX_sek. rewrite axi_scl, exp_axi, jl_axi, g2_axi, (mirX_rot p K), !mflip_mul by auto. apply aff_ext. intros k Hk. rewrite (mirX_col p K X 0), (mirX_col p K X 1) by (auto; lia).
  cbv beta. destruct k as [|[|k]]; [| |apply (mirX_col p K); auto].
  - transitivity (pol p (col X 0) +v dt *s (mflip p (rot X *m jl (dt *s w)) *v pol p a +v pol p g_)); [rewrite pol_g; reflexivity|]. rewrite mflip_mv, !pol_add, pol_scl, pol_add. reflexivity.
  - transitivity (pol p (col X 1) +v dt *s pol p (col X 0) +v (dt * dt) *s (mflip p (rot X *m g2 (dt *s w)) *v pol p a +v (1 / 2) *s pol p g_)); [rewrite pol_g; reflexivity|].
    rewrite mflip_mv, !pol_scl, !pol_add, !pol_scl, !pol_add. reflexivity.
Qed.
Lemma step_mir K ip m s t0 : wfp K s -> stprop s = Some t0 -> propagate_with (mir_ip ip) (mir_imu p m) (mirrored p s) = rmap (mirrored p) (propagate_with ip m s).
Proof.
  intros W Ht. pose proof (step_eq K ip m s t0 W Ht) as E1. pose proof (step_eq K (mir_ip ip) (mir_imu p m) (mirrored p s) t0 (mir_wfp K s W) Ht) as E2. cbv zeta in E1, E2. rewrite E1, E2. cbn [rmap]. f_equal.
  pose proof W as [[HX HT1 HT2 HP1 HP2] HK Hty HQ1 HQ2].
  destruct (rates_mir K ip m s (wp_wf _ _ W)) as [-> ->]. change (i_t (mir_imu p m)) with (i_t m).
  set (w := rate ip m (gbias s)). set (a := accel ip m (gbias s) (abias s)). set (dt := i_t m - t0).
  change (sX (mirrored p s)) with (mirX p (sX s)). rewrite stepX_mir by auto.
  symmetry. unfold mirrored at 1. cbn [stype sX sTheta sP scmap st stprop sQc sbav sen sslip]. f_equal. symmetry.
  rewrite nr_next. pose proof (Dg_sign p K) as HD.
  assert (sP (mirrored p s) = signs (Dg p K) (Dg p K) (sP s)) as EP by (cbn [sP mirrored]; rewrite HP1; reflexivity).
  assert (sQc (mirrored p s) = signs (Dg p K) (Dg p K) (sQc s)) as EQ by (cbn [sQc mirrored]; rewrite HQ1; reflexivity).
  assert (prior_cov K (mir_ip ip) (mirrored p s) (axi p w) (pol p a) dt = signs (Dg p K) (Dg p K) (prior_cov K ip s w a dt)) as EC.
  { unfold prior_cov. rewrite EP, EQ. change (ip_err (mir_ip ip)) with (ip_err ip). change (ip_enable (mir_ip ip)) with (ip_enable ip). change (sX (mirrored p s)) with (mirX p (sX s)).
    rewrite Phi_mir, NG_mir, Qfull_mir by auto. rewrite !signs_mult by (auto; mdim). rewrite !signs_T. rewrite !signs_mult by (auto; mdim). rewrite signs_scl. apply signs_plus; mdim. }
  unfold next_cov. rewrite EC. change (ip_enable (mir_ip ip)) with (ip_enable ip). destruct (ip_enable ip); [reflexivity|]. symmetry. apply signs_mask. exact HD.
Qed.
Lemma Propagate_mir K ip s t0 : wfp K s -> stprop s = Some t0 ->
  Propagate (mir_ip ip) (mirrored p s) = rmap (fun '(b, ip', s') => (b, mir_ip ip', mirrored p s')) (Propagate ip s).
Proof.
  intros W Ht. unfold Propagate. cbn [ip_queue mir_ip]. destruct (ip_queue ip) as [|x l]; [reflexivity|]. cbn [map ip_prev mir_ip].
  destruct (ip_prev ip) as [m|]; [|reflexivity]. cbn [of_opt option_map bind].
  set (ip1 := set_prev (set_queue ip l) x). change (set_prev (set_queue (mir_ip ip) (map (mir_imu p) l)) (mir_imu p x)) with (mir_ip ip1).
  rewrite (step_mir K ip1 m s t0) by auto. destruct (propagate_with ip1 m s); reflexivity.
Qed.
End M.
