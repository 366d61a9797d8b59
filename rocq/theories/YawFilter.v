(** Proofs: the Kalman update commutes with a rotation of the world. *)
From Coq Require Import Reals ZArith List Bool Lia Lra.
From Verif Require Import Res Vec3 Mat LieGroup MatInv Psd Spec SpecState LieSO3 LieSEK LieThms RobotState StateProofs StateHist StateMisc Inekf SpecFilter
  InekfProofs InekfThms Imu Propagation SpecProp Blk PsdBlk PropagationProofs PropagationThms PropagationLog Queue VelCorr LegCorr SpecCorr ImuNeg VelThms LegThms LegAdd LegLoop LegUpd LegHist ConvLeg ConvFilter
  Estimator SpecEst SpecConv SpecYaw.
Import ListNotations.
Local Open Scope R_scope.

(** the rotation as an element of the group *)
Definition lead (K : nat) (R : M3) : mat := sek K R (fun _ => vzero).
Lemma lead_SEK K R : SO3 R -> SEK K (lead K R). Proof. apply SEK_sek. Qed.
Lemma turn_X_sek K R X : SEK K X -> turn_X R X = sek K (R *m rot X) (fun k => R *v col X k).
Proof.
  intros HX. apply mat_ext.
  - rewrite nr_aff. unfold turn_X. rewrite nr_mk. apply (sek_rows _ _ HX).
  - rewrite nc_aff. unfold turn_X. rewrite nc_mk. apply (sek_cols _ _ HX).
  - intros i j Hi Hj. change (nr (turn_X R X)) with (nr X) in Hi. change (nc (turn_X R X)) with (nc X) in Hj. rewrite (sek_rows _ _ HX) in Hi. rewrite (sek_cols _ _ HX) in Hj.
    unfold turn_X. rewrite ent_mk by (rewrite ?(sek_rows _ _ HX), ?(sek_cols _ _ HX); lia).
    destruct (Nat.ltb_spec i 3) as [Li|Li].
    + destruct (le_lt_dec 3 j) as [Lj|Lj].
      * replace j with (3 + (j - 3))%nat by lia. rewrite ent_aff_col by lia. rewrite vget_mv by auto. unfold col. rewrite !vget_getV3 by lia. reflexivity.
      * rewrite ent_aff_rot by lia. rewrite mget_mul by auto. unfold rot. rewrite !mget_getM3 by lia. reflexivity.
    + rewrite ent_aff_bot by lia. apply (sek_bot _ _ HX); lia.
Qed.
Lemma turn_X_lead K R X : SEK K X -> turn_X R X = lead K R *M X.
Proof.
  intros HX. rewrite (turn_X_sek K) by auto. transitivity (lead K R *M sek K (rot X) (col X)); [|rewrite <- (SEK_form K X HX); reflexivity]. unfold lead. rewrite aff_mult, Rmult_1_l. apply aff_ext.
  intros k Hk. rewrite vscal_1. destruct (R *v col X k). ring3.
Qed.
Lemma turn_X_SEK K R X : SO3 R -> SEK K X -> SEK K (turn_X R X).
Proof. intros HR HX. rewrite (turn_X_sek K) by auto. apply SEK_sek, SO3_mul; auto. apply (SEK_SO3 _ _ HX). Qed.
Lemma turn_rot K R X : SEK K X -> rot (turn_X R X) = R *m rot X. Proof. intros H. rewrite (turn_X_sek K) by auto. apply rot_aff. Qed.
Lemma turn_col K R X k : SEK K X -> (k < K)%nat -> col (turn_X R X) k = R *v col X k. Proof. intros H Hk. rewrite (turn_X_sek K) by auto. rewrite col_aff by auto. reflexivity. Qed.

Lemma AdB_mult K X Y : SEK K X -> SEK K Y -> AdB K (X *M Y) = AdB K X *M AdB K Y.
Proof. intros HX HY. unfold AdB. rewrite AdB_eq_blocks by mdim. rewrite Ad_mult by auto. reflexivity. Qed.
Lemma sekinv_mult K X Y : SEK K X -> SEK K Y -> sekinv K (X *M Y) = sekinv K Y *M sekinv K X.
Proof.
  intros HX HY. destruct (sekinv_spec K _ (SEK_mult K _ _ HX HY)) as (A1 & A2 & A3 & A4 & A5 & A6).
  destruct (sekinv_spec K X HX) as (B1 & B2 & B3 & B4 & B5 & B6). destruct (sekinv_spec K Y HY) as (C1 & C2 & C3 & C4 & C5 & C6).
  rewrite <- (mmult_eye_r (sekinv K (X *M Y)) (3 + K)) by auto.
  assert (X *M Y *M (sekinv K Y *M sekinv K X) = meye (3 + K)) as <-.
  { rewrite mmult_assoc, <- (mmult_assoc X), C5, mmult_eye_r by auto. exact B5. }
  rewrite mmult_assoc, A6, mmult_eye_l; [reflexivity|]. rewrite nr_mult. exact C3.
Qed.
Lemma AdB_eyeX K : AdB K (meye (3 + K)) = meye (9 + 3 * K).
Proof. unfold AdB. rewrite Ad_eye. apply AdB_eye. Qed.

(** masking biases, whichever *)
Definition dg (m : nat -> bool) (n : nat) : mat := mk n n (fun i j => if Nat.eqb i j then (if m i then 0 else 1) else 0).
Definition dgc (m : nat -> bool) (c : R) (n : nat) : mat := mk n n (fun i j => if Nat.eqb i j then (if m i then c else 0) else 0).
Lemma nr_dg m n : nr (dg m n) = n. Proof. reflexivity. Qed.
Lemma nc_dg m n : nc (dg m n) = n. Proof. reflexivity. Qed.
Lemma nr_dgc m c n : nr (dgc m c n) = n. Proof. reflexivity. Qed.
Lemma nc_dgc m c n : nc (dgc m c n) = n. Proof. reflexivity. Qed.
Global Hint Rewrite nr_dg nc_dg nr_dgc nc_dgc : mdims.
Lemma dg_l m n A i j : nr A = n -> (i < n)%nat -> ent (dg m n *M A) i j = (if m i then 0 else 1) * ent A i j.
Proof.
  intros H Hi. rewrite ent_mult, nc_dg. rewrite (sum_delta' _ i); auto.
  - unfold dg. rewrite ent_mk by auto. rewrite Nat.eqb_refl. reflexivity.
  - intros k Hk Hne. unfold dg. rewrite ent_mk by auto. destruct (Nat.eqb_spec i k); [lia|ring].
Qed.
Lemma dg_r m n A i j : nc A = n -> (j < n)%nat -> ent (A *M dg m n) i j = ent A i j * (if m j then 0 else 1).
Proof.
  intros H Hi. rewrite ent_mult, H. rewrite (sum_delta' _ j); auto.
  - unfold dg. rewrite ent_mk by auto. rewrite Nat.eqb_refl. reflexivity.
  - intros k Hk Hne. unfold dg. rewrite ent_mk by auto. destruct (Nat.eqb_spec k j); [lia|ring].
Qed.
Lemma dgc_r m c n A i j : nc A = n -> (j < n)%nat -> ent (A *M dgc m c n) i j = ent A i j * (if m j then c else 0).
Proof.
  intros H Hi. rewrite ent_mult, H. rewrite (sum_delta' _ j); auto.
  - unfold dgc. rewrite ent_mk by auto. rewrite Nat.eqb_refl. reflexivity.
  - intros k Hk Hne. unfold dgc. rewrite ent_mk by auto. destruct (Nat.eqb_spec k j); [lia|ring].
Qed.
Lemma mask_dg m c P n : nr P = n -> nc P = n -> mask_diag m c P = dg m n *M P *M dg m n +M dgc m c n.
Proof.
  intros H1 H2. apply mat_ext; mdim. intros i j Hi Hj. change (nr (mask_diag m c P)) with (nr P) in Hi. change (nc (mask_diag m c P)) with (nc P) in Hj. rewrite ent_mask by auto. rewrite ent_plus by mdim.
  rewrite dg_r by (mdim; lia). rewrite dg_l by (mdim; lia). unfold dgc. rewrite ent_mk by lia.
  destruct (Nat.eqb_spec i j) as [->|]; [destruct (m j); cbn [orb]; ring|]. destruct (m i), (m j); cbn [orb]; ring.
Qed.
Lemma mask_conj m c B P n : nr B = n -> nc B = n -> nr P = n -> nc P = n ->
  (forall i j, (i < n)%nat -> (j < n)%nat -> (m i = true \/ m j = true) -> ent B i j = if Nat.eqb i j then 1 else 0) ->
  mask_diag m c (B *M P *M mT B) = B *M mask_diag m c P *M mT B.
Proof.
  intros B1 B2 P1 P2 HB. assert (dg m n *M B = B *M dg m n) as E1.
  { apply mat_ext; mdim. intros i j Hi Hj. mdim. rewrite dg_l, dg_r by (mdim; lia).
    destruct (m i) eqn:Ei.
    - rewrite HB by (auto; lia). destruct (Nat.eqb_spec i j) as [->|]; [rewrite Ei; ring|ring].
    - destruct (m j) eqn:Ej; [|ring]. rewrite HB by (auto; lia). destruct (Nat.eqb_spec i j) as [->|]; [congruence|ring]. }
  assert (mT (dg m n) = dg m n) as ET.
  { apply mat_ext; mdim. intros i j Hi Hj. mdim. rewrite ent_T. unfold dg. rewrite !ent_mk by lia. rewrite Nat.eqb_sym. destruct (Nat.eqb_spec i j) as [->|]; reflexivity. }
  assert (mT B *M dg m n = dg m n *M mT B) as E2. { rewrite <- ET at 1. rewrite <- mT_mult by mdim. rewrite E1, mT_mult by mdim. rewrite ET. reflexivity. }
  assert (B *M dgc m c n *M mT B = dgc m c n) as E3.
  { apply mat_ext; mdim. intros i j Hi Hj. mdim. rewrite ent_mult. rewrite nc_mult, nc_dgc.
    rewrite (sum_delta' _ i); [| |lia].
    - rewrite dgc_r by (mdim; lia). rewrite ent_T. unfold dgc. rewrite ent_mk by lia. destruct (m i) eqn:Em.
      + rewrite !HB by (auto; lia). rewrite Nat.eqb_refl, (Nat.eqb_sym j i). destruct (Nat.eqb i j); ring.
      + destruct (Nat.eqb i j); ring.
    - intros k Hk Hne. rewrite dgc_r by (mdim; lia). destruct (m k) eqn:Em; [|ring]. rewrite HB by (auto; lia). destruct (Nat.eqb_spec i k); [lia|ring]. }
  rewrite (mask_dg m c _ n), (mask_dg m c P n) by mdim. rewrite mmult_plus_r by mdim. rewrite mmult_plus_l by mdim. rewrite E3. f_equal.
  rewrite !mmult_assoc. rewrite E1. rewrite <- !mmult_assoc. rewrite E2. rewrite !mmult_assoc. reflexivity.
Qed.

(** the exponential *)
Lemma vnorm_rot R v : SO3 R -> vnorm (R *v v) = vnorm v.
Proof.
  intros [HR _]. unfold vnorm. f_equal. transitivity (vdot v (mtr R *m R *v v)); [|rewrite HR; destruct v; unfold vdot; cbn; ring].
  destruct R, v. unfold vdot. cbn. ring.
Qed.
Lemma conj_mul R A B : SO3 R -> (R *m A *m mtr R) *m (R *m B *m mtr R) = R *m (A *m B) *m mtr R.
Proof.
  intros [HR _]. transitivity (R *m A *m (mtr R *m R) *m B *m mtr R); [destruct R, A, B; ring3|]. rewrite HR. destruct R, A, B. ring3.
Qed.
Lemma Gam_rot m R v : SO3 R -> Gam m (R *v v) = R *m Gam m v *m mtr R.
Proof.
  intros HR. unfold Gam. rewrite vnorm_rot by auto. rewrite (SO3_skew R v HR), (conj_mul R _ _ HR). pose proof (SO3_r _ HR) as E.
  set (S := skew v). set (a := / INR (fact m)). set (b := sc _ _). set (c := sc _ _).
  transitivity (a *ms (R *m mtr R) +m b *ms (R *m S *m mtr R) +m c *ms (R *m (S *m S) *m mtr R)); [rewrite E; reflexivity|].
  generalize (S *m S). intros T. destruct R, S, T. ring3.
Qed.
Lemma expSO3_rot R v : SO3 R -> expSO3 (R *v v) = R *m expSO3 v *m mtr R.
Proof.
  intros HR. unfold expSO3. rewrite vnorm_rot by auto. destruct (Rlt_dec _ _); [|apply Gam_rot; auto]. rewrite <- (SO3_r _ HR) at 1. destruct R. ring3.
Qed.
Lemma jl_rot R v : SO3 R -> jl (R *v v) = R *m jl v *m mtr R.
Proof.
  intros HR. unfold jl. rewrite vnorm_rot by auto. destruct (Rlt_dec _ _); [|apply Gam_rot; auto]. rewrite <- (SO3_r _ HR) at 1. destruct R. ring3.
Qed.
Lemma lead_inv K R : sekinv K (lead K R) = lead K (mtr R).
Proof. unfold sekinv, lead. rewrite rot_aff. apply aff_ext. intros k Hk. rewrite col_aff by auto. ring3. Qed.
Lemma expSEK_lead K R v : SO3 R -> nr v = (3 + 3 * K)%nat -> expSEK (Ad K (lead K R) *M v) = lead K R *M expSEK v *M lead K (mtr R).
Proof.
  intros HR Hv. unfold expSEK. change (nr (Ad K (lead K R) *M v)) with (3 + 3 * K)%nat. rewrite Hv.
  replace ((3 + 3 * K - 3) / 3)%nat with K by (replace (3 + 3 * K - 3)%nat with (K * 3)%nat by lia; rewrite Nat.div_mul; lia).
  unfold Ad. rewrite getV3_Ad0 by auto. unfold lead. rewrite !aff_mult. rewrite rot_aff. rewrite expSO3_rot, jl_rot by auto.
  replace (1 * 1 * 1) with 1 by ring. apply aff_ext. intros k Hk. rewrite getV3_AdS by auto. rewrite col_aff by auto.
  set (u := getV3 v (3 + 3 * k) 0). set (J := jl (getV3 v 0 0)). set (w := R *v getV3 v 0 0). set (E := expSO3 (getV3 v 0 0)).
  replace (skew vzero *v w +v R *v u) with (R *v u) by (unfold skew; destruct w, (R *v u); ring3).
  transitivity (R *m J *m (mtr R *m R) *v u); [destruct R, J, u; ring3|]. destruct HR as [HR _]. rewrite HR. clear HR. destruct R, J, u, E. ring3.
Qed.

(** the group part and the bias part of B v *)
Lemma sub_AdB_top K X v : nr v = (9 + 3 * K)%nat -> nc v = 1%nat -> sub (AdB K X *M v) 0 0 (3 + 3 * K) 1 = Ad K X *M sub v 0 0 (3 + 3 * K) 1.
Proof.
  intros H1 H2. apply mat_ext; mdim. intros i j Hi Hj. rewrite ?nr_sub in Hi. rewrite ?nc_sub in Hj. rewrite ent_sub by auto. rewrite !ent_mult. rewrite nc_AdB, nc_Ad.
  replace (9 + 3 * K)%nat with (3 + 3 * K + 6)%nat by lia. rewrite sum_app. rewrite (sum_zero 6).
  - rewrite Rplus_0_r. apply sum_ext. intros k Hk. rewrite ent_AdB by lia. rewrite ent_sub by lia. destruct (Nat.ltb_spec (0 + i) (3 + 3 * K)), (Nat.ltb_spec k (3 + 3 * K)); try lia. reflexivity.
  - intros k Hk. rewrite ent_AdB by lia. destruct (Nat.ltb_spec (3 + 3 * K + k) (3 + 3 * K)); [lia|]. rewrite andb_false_r. destruct (Nat.eqb_spec (0 + i) (3 + 3 * K + k)); [lia|ring].
Qed.
Lemma sub_AdB_bias K X v : nr v = (9 + 3 * K)%nat -> nc v = 1%nat -> sub (AdB K X *M v) (3 + 3 * K) 0 6 1 = sub v (3 + 3 * K) 0 6 1.
Proof.
  intros H1 H2. apply mat_ext; mdim. intros i j Hi Hj. rewrite ?nr_sub in Hi. rewrite ?nc_sub in Hj. rewrite !ent_sub by auto. rewrite ent_mult. rewrite nc_AdB.
  rewrite (sum_delta' _ (3 + 3 * K + i)); [| |lia].
  - rewrite ent_AdB by lia. destruct (Nat.ltb_spec (3 + 3 * K + i) (3 + 3 * K)); [lia|]. cbn [andb]. rewrite Nat.eqb_refl. ring.
  - intros k Hk Hne. rewrite ent_AdB by lia. destruct (Nat.ltb_spec (3 + 3 * K + i) (3 + 3 * K)); [lia|]. cbn [andb]. destruct (Nat.eqb_spec (3 + 3 * K + i) k); [lia|ring].
Qed.

Definition turnL := turned LeftInvariant.
Lemma turnL_wf K R s : SO3 R -> wf K s -> wf K (turnL R s).
Proof. intros HR [A B C D E]. split; auto. apply turn_X_SEK; auto. Qed.
Lemma turnL_wfp K R s : SO3 R -> wfp K s -> wfp K (turnL R s).
Proof. intros HR [A B C D E]. split; auto. apply turnL_wf; auto. Qed.

Lemma CR_turn K m A Z H N R s : SO3 R -> wf K s -> measurement K m Z H N ->
  nr A = m -> nc A = m -> mT A *M A = meye m -> H *M AdB K (lead K R) = A *M H ->
  CorrectRightInvariant (A *M Z) H (A *M N *M mT A) (turnL R s) LeftInvariant = rmap (turnL R) (CorrectRightInvariant Z H N s LeftInvariant).
Proof.
  intros HR W M A1 A2 AA HB. pose proof M as (M1 & M2 & M3 & M4 & M5 & M6).
  assert (measurement K m (A *M Z) H (A *M N *M mT A)) as M' by (repeat split; mdim).
  rewrite (CorrectRight_eq K m) by (auto using turnL_wf). rewrite (CorrectRight_eq K m Z H N s) by auto. cbv zeta. cbn [from_right to_right].
  change (sen (turnL R s)) with (sen s). change (sP (turnL R s)) with (sP s). change (sTheta (turnL R s)) with (sTheta s).
  change (sX (turnL R s)) with (turn_X R (sX s)).
  pose proof W as [HX HT1 HT2 HP1 HP2]. rewrite (turn_X_lead K R _ HX).
  set (g := lead K R) in *. assert (SEK K g) as Hg by (apply lead_SEK; auto). rewrite (AdB_mult K g (sX s)) by auto. set (B := AdB K g) in *.
  set (w := work_cov K (sen s) (sP s)). assert (nr w = (9 + 3 * K)%nat /\ nc w = (9 + 3 * K)%nat) as [W1 W2] by (destruct (work_cov_dim K (sen s) (sP s)); unfold w; split; congruence).
  assert (nr B = (9 + 3 * K)%nat /\ nc B = (9 + 3 * K)%nat) as [B1 B2] by (split; reflexivity).
  assert (B *M AdB K (sX s) *M w *M mT (B *M AdB K (sX s)) = B *M (AdB K (sX s) *M w *M mT (AdB K (sX s))) *M mT B) as ->.
  { rewrite mT_mult by mdim. rewrite !mmult_assoc. reflexivity. }
  set (P1 := AdB K (sX s) *M w *M mT (AdB K (sX s))). assert (nr P1 = (9 + 3 * K)%nat /\ nc P1 = (9 + 3 * K)%nat) as [D1 D2] by (split; reflexivity).
  assert (Sof (B *M P1 *M mT B) H (A *M N *M mT A) = A *M Sof P1 H N *M mT A) as ES.
  { unfold Sof. rewrite mmult_plus_r by mdim. rewrite mmult_plus_l by mdim. f_equal.
    transitivity (H *M B *M P1 *M mT (H *M B)); [rewrite mT_mult by mdim; rewrite !mmult_assoc; reflexivity|]. rewrite HB. rewrite mT_mult by mdim. rewrite !mmult_assoc. reflexivity. }
  rewrite ES. set (S := Sof P1 H N) in *. assert (nr S = m /\ nc S = m) as [S1 S2] by (unfold S, Sof; mdim; auto).
  assert (A *M mT A = meye m) as AA'.
  { pose proof (minv_unique A (mT A) m A1 A2) as E. rewrite nr_T, nc_T in E. specialize (E A2 A1 AA). apply minv_some in E. destruct E as (_ & _ & _ & E & _). rewrite A1 in E. exact E. }
  assert (minv (A *M S *M mT A) = match minv S with Some Si => Some (A *M Si *M mT A) | None => None end) as ->.
  { destruct (minv S) as [Si|] eqn:E.
    - apply minv_some in E. destruct E as (_ & E1 & E2 & E3 & E4). rewrite S1 in *. apply (minv_unique _ _ m); mdim.
      rewrite !mmult_assoc. rewrite <- (mmult_assoc (A *M Si) (mT A) A), AA, mmult_eye_r by mdim. rewrite <- (mmult_assoc A Si S), E4, mmult_eye_r by mdim. exact AA'.
    - apply minv_none_iff; [mdim|]. intros (C & C1 & C2 & C3 & C4). mdim. apply minv_none_iff in E; [|mdim]. apply E. exists (mT A *M C *M A). rewrite S1. mdim.
      split; [congruence|]. split; [congruence|].
      assert (A *M (S *M (mT A *M C *M A)) *M mT A = A *M meye m *M mT A) as X1.
      { rewrite mmult_eye_r by auto. rewrite AA'. rewrite !mmult_assoc, C3, A1. rewrite mmult_eye_l by auto. exact AA'. }
      assert (A *M (mT A *M C *M A *M S) *M mT A = A *M meye m *M mT A) as X2.
      { rewrite mmult_eye_r by auto. rewrite AA'. transitivity (A *M mT A *M (C *M (A *M S *M mT A))); [rewrite !mmult_assoc; reflexivity|]. rewrite C4, A1. rewrite mmult_eye_r by mdim. exact AA'. }
      assert (forall Y Y', nr Y = m -> nc Y = m -> nr Y' = m -> nc Y' = m -> A *M Y *M mT A = A *M Y' *M mT A -> Y = Y') as HC.
      { intros Y Y' Y1 Y2 Y3 Y4 E0. apply (f_equal (fun T => mT A *M T *M A)) in E0.
        assert (forall T, nr T = m -> nc T = m -> mT A *M (A *M T *M mT A) *M A = T) as HT.
        { intros T T1 T2. rewrite !mmult_assoc, AA, mmult_eye_l by auto. rewrite <- (mmult_assoc T), AA, mmult_eye_r by auto. reflexivity. }
        rewrite !HT in E0 by auto. exact E0. }
      split; apply HC; mdim. }
  destruct (minv S) as [Si|] eqn:ESi; [|reflexivity]. cbn [rmap].
  apply minv_some in ESi. destruct ESi as (_ & E1 & E2 & _ & _). rewrite S1 in E1, E2.
  set (G := Gof P1 H Si). assert (nr G = (9 + 3 * K)%nat /\ nc G = m) as [G1 G2] by (unfold G, Gof; mdim; auto).
  assert (Gof (B *M P1 *M mT B) H (A *M Si *M mT A) = B *M G *M mT A) as ->.
  { unfold Gof, G, Gof. transitivity (B *M P1 *M mT (H *M B) *M A *M Si *M mT A); [rewrite mT_mult by mdim; rewrite !mmult_assoc; reflexivity|].
    rewrite HB, mT_mult by mdim. rewrite !mmult_assoc. rewrite <- (mmult_assoc (B *M P1 *M mT H) (mT A) A), AA, mmult_eye_r by mdim. reflexivity. }
  assert (B *M G *M mT A *M (A *M Z) = B *M (G *M Z)) as EV.
  { rewrite !mmult_assoc. rewrite <- (mmult_assoc (B *M G) (mT A) A), AA, mmult_eye_r by mdim. reflexivity. }
  unfold dX_of, dTheta_of. rewrite EV. unfold B. rewrite sub_AdB_top, sub_AdB_bias by mdim. fold B. fold (dX_of K G Z) (dTheta_of K G Z).
  unfold g. rewrite expSEK_lead by (auto; reflexivity). fold g. change (expSEK (sub (G *M Z) 0 0 (3 + 3 * K) 1)) with (dX_of K G Z).
  set (dX := dX_of K G Z). assert (SEK K dX) as HdX by apply dX_SEK.
  assert (g *M dX *M lead K (mtr R) *M (g *M sX s) = g *M (dX *M sX s)) as EX.
  { rewrite !mmult_assoc. destruct (sekinv_spec K g Hg) as (_ & _ & _ & _ & _ & X6). unfold g in X6 at 1. rewrite lead_inv in X6. fold g in X6.
    rewrite <- (mmult_assoc (g *M dX)), X6, mmult_eye_r; [reflexivity|]. rewrite nc_mult. apply (sek_cols _ _ HdX). }
  rewrite EX. set (X1 := dX *M sX s). assert (SEK K X1) as HX1 by (apply SEK_mult; auto).
  assert (jos (9 + 3 * K) (B *M P1 *M mT B) H (A *M N *M mT A) (B *M G *M mT A) = B *M jos (9 + 3 * K) P1 H N G *M mT B) as ->.
  { unfold jos. rewrite (mmult_plus_r B) by mdim. rewrite (mmult_plus_l _ _ (mT B)) by mdim.
    assert ((meye (9 + 3 * K) -M B *M G *M mT A *M H) *M B = B *M (meye (9 + 3 * K) -M G *M H)) as EJ.
    { rewrite mmult_minus_l, mmult_minus_r by mdim. rewrite mmult_eye_l, mmult_eye_r by mdim. f_equal. rewrite <- (mmult_assoc _ H B), HB. rewrite !mmult_assoc.
      rewrite <- (mmult_assoc (B *M G) (mT A) A), AA, mmult_eye_r by mdim. reflexivity. }
    f_equal.
    - set (L := meye (9 + 3 * K) -M B *M G *M mT A *M H) in *. set (L0 := meye (9 + 3 * K) -M G *M H) in *.
      assert (nr L = (9 + 3 * K)%nat /\ nc L = (9 + 3 * K)%nat) as [L1 L2] by (split; reflexivity). assert (nr L0 = (9 + 3 * K)%nat /\ nc L0 = (9 + 3 * K)%nat) as [L3 L4] by (split; reflexivity).
      transitivity (L *M B *M P1 *M mT (L *M B)); [rewrite mT_mult by mdim; rewrite !mmult_assoc; reflexivity|]. rewrite EJ. rewrite mT_mult by mdim. rewrite !mmult_assoc. reflexivity.
    - rewrite !mT_mult by mdim. rewrite mT_T. rewrite !mmult_assoc. rewrite <- (mmult_assoc (B *M G) (mT A) A), AA, mmult_eye_r by mdim.
      rewrite <- (mmult_assoc (B *M G *M N) (mT A) A), AA, mmult_eye_r by mdim. reflexivity. }
  set (J := jos (9 + 3 * K) P1 H N G). assert (nr J = (9 + 3 * K)%nat /\ nc J = (9 + 3 * K)%nat) as [J1 J2] by (unfold J, jos; mdim; auto).
  rewrite (mask_conj _ _ B J (9 + 3 * K)) by (auto; intros i j Hi Hj Hm; unfold B; rewrite ent_AdB by auto; unfold yawm in Hm; destruct Hm as [Hm|Hm]; apply Nat.eqb_eq in Hm; subst;
    destruct (Nat.ltb_spec (5 + 3 * K) (3 + 3 * K)); try lia; rewrite ?andb_false_r; reflexivity).
  set (Y := mask_diag (yawm K) c4 J). assert (nr Y = (9 + 3 * K)%nat /\ nc Y = (9 + 3 * K)%nat) as [Y1 Y2] by (unfold Y; rewrite nr_mask, nc_mask; auto).
  rewrite (sekinv_mult K g X1) by auto. rewrite (AdB_mult K (sekinv K X1) (sekinv K g)) by (apply SEK_inv; auto). set (C := AdB K (sekinv K X1)). set (D := AdB K (sekinv K g)).
  pose proof (AdB_inv K g Hg) as (_ & _ & _ & _ & _ & I6). fold B D in I6.
  assert (C *M D *M (B *M Y *M mT B) *M mT (C *M D) = C *M Y *M mT C) as ->.
  { rewrite mT_mult by (unfold C, D; mdim). transitivity (C *M (D *M B) *M Y *M mT (D *M B) *M mT C).
    - rewrite mT_mult by (unfold D; mdim). rewrite !mmult_assoc. reflexivity.
    - rewrite I6, mT_eye. rewrite !mmult_eye_r by (unfold C; mdim). reflexivity. }
  unfold turnL, turned, turn_cov. cbn [sX sP set_P set_theta set_X]. rewrite (turn_X_lead K R X1 HX1). fold g. reflexivity.
Qed.
