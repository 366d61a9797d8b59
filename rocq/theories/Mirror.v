(** Proofs: the filter commutes with a mirror. *)
From Coq Require Import Reals ZArith List Bool Lia Lra.
From Verif Require Import Res Vec3 Mat LieGroup MatInv Psd Spec SpecState LieSO3 LieSEK LieThms RobotState StateProofs StateHist StateMisc Inekf SpecFilter
  InekfProofs InekfThms Imu Propagation SpecProp Blk PsdBlk PropagationProofs PropagationThms PropagationLog Queue VelCorr LegCorr SpecCorr ImuNeg VelThms LegThms LegAdd LegLoop LegUpd LegHist ConvLeg ConvFilter
  Estimator SpecEst SpecConv YawFilter YawSteps SpecMirror.
Import ListNotations.
Local Open Scope R_scope.

(** ** three-dimensional algebra *)
Lemma sgn2 p a : sgn p a * sgn p a = 1.
Proof. destruct p, a as [|[|a]]; cbn; ring. Qed.
Definition Qm (p : plane) : M3 := mkM (- sgn p 0) 0 0 0 (- sgn p 1) 0 0 0 (- sgn p 2).
Lemma Qm_SO3 p : SO3 (Qm p).
Proof. split; destruct p; unfold Qm, sgn, det3; [ring3|ring3|cbn; ring|cbn; ring]. Qed.
Lemma axi_Q p v : axi p v = Qm p *v v.
Proof. destruct p, v; unfold axi, pol, Qm, sgn; ring3. Qed.
Lemma mflip_Q p A : mflip p A = Qm p *m A *m mtr (Qm p).
Proof. destruct p, A; unfold mflip, Qm, sgn; ring3. Qed.
Ltac mir := intros; unfold mflip, axi, pol, sgn; ring3.
Lemma mflip_mv p A v : mflip p A *v pol p v = pol p (A *v v). Proof. destruct p, A, v; mir. Qed.
Lemma mflip_mva p A v : mflip p A *v axi p v = axi p (A *v v). Proof. destruct p, A, v; mir. Qed.
Lemma mflip_mul p A B : mflip p A *m mflip p B = mflip p (A *m B). Proof. destruct p, A, B; mir. Qed.
Lemma mflip_add p A B : mflip p A +m mflip p B = mflip p (A +m B). Proof. destruct p, A, B; mir. Qed.
Lemma mflip_sub p A B : mflip p A -m mflip p B = mflip p (A -m B). Proof. destruct p, A, B; mir. Qed.
Lemma mflip_scl p c A : c *ms mflip p A = mflip p (c *ms A). Proof. destruct p, A; mir. Qed.
Lemma mflip_neg p A : mneg (mflip p A) = mflip p (mneg A). Proof. destruct p, A; mir. Qed.
Lemma mflip_T p A : mtr (mflip p A) = mflip p (mtr A). Proof. destruct p, A; mir. Qed.
Lemma mflip_id p : mflip p mid = mid. Proof. destruct p; mir. Qed.
Lemma mflip_0 p : mflip p mzero = mzero. Proof. destruct p; mir. Qed.
Lemma pol_add p u v : pol p u +v pol p v = pol p (u +v v). Proof. destruct p, u, v; mir. Qed.
Lemma pol_sub p u v : pol p u -v pol p v = pol p (u -v v). Proof. destruct p, u, v; mir. Qed.
Lemma axi_sub p u v : axi p u -v axi p v = axi p (u -v v). Proof. destruct p, u, v; mir. Qed.
Lemma axi_add p u v : axi p u +v axi p v = axi p (u +v v). Proof. destruct p, u, v; mir. Qed.
Lemma pol_scl p c v : c *s pol p v = pol p (c *s v). Proof. destruct p, v; mir. Qed.
Lemma axi_scl p c v : c *s axi p v = axi p (c *s v). Proof. destruct p, v; mir. Qed.
Lemma pol_neg p v : vneg (pol p v) = pol p (vneg v). Proof. destruct p, v; mir. Qed.
Lemma axi_neg p v : vneg (axi p v) = axi p (vneg v). Proof. destruct p, v; mir. Qed.
Lemma pol_0 p : pol p vzero = vzero. Proof. destruct p; mir. Qed.
Lemma axi_0 p : axi p vzero = vzero. Proof. destruct p; mir. Qed.
Lemma pol_g p : pol p g_ = g_. Proof. destruct p; unfold g_; mir. Qed.
Lemma skew_pol p v : skew (pol p v) = mflip p (mneg (skew v)). Proof. destruct p, v; unfold skew; mir. Qed.
Lemma skew_axi p v : skew (axi p v) = mflip p (skew v). Proof. destruct p, v; unfold skew; mir. Qed.
Lemma crossm_pol p v : crossm (pol p v) = mflip p (mneg (crossm v)). Proof. destruct p, v; unfold crossm; mir. Qed.
Lemma cross_aa p u v : cross (axi p u) (axi p v) = axi p (cross u v). Proof. destruct p, u, v; unfold cross; mir. Qed.
Lemma cross_ap p u v : cross (axi p u) (pol p v) = pol p (cross u v). Proof. destruct p, u, v; unfold cross; mir. Qed.
Lemma mflip_SO3 p A : SO3 A -> SO3 (mflip p A).
Proof. intros H. rewrite mflip_Q. apply SO3_mul; [apply SO3_mul; auto using Qm_SO3|apply SO3_tr, Qm_SO3]. Qed.
Lemma vnorm_axi p v : vnorm (axi p v) = vnorm v. Proof. rewrite axi_Q. apply vnorm_rot, Qm_SO3. Qed.
Lemma Gam_axi p m v : Gam m (axi p v) = mflip p (Gam m v). Proof. rewrite axi_Q, mflip_Q. apply Gam_rot, Qm_SO3. Qed.
Lemma exp_axi p v : expSO3 (axi p v) = mflip p (expSO3 v). Proof. rewrite axi_Q, mflip_Q. apply expSO3_rot, Qm_SO3. Qed.
Lemma jl_axi p v : jl (axi p v) = mflip p (jl v). Proof. rewrite axi_Q, mflip_Q. apply jl_rot, Qm_SO3. Qed.
Lemma g2_axi p v : g2 (axi p v) = mflip p (g2 v).
Proof. unfold g2. rewrite vnorm_axi. destruct (Rlt_dec _ _); [rewrite <- mflip_scl, mflip_id; reflexivity|apply Gam_axi]. Qed.
Lemma g3_axi p v : g3 (axi p v) = mflip p (g3 v).
Proof. unfold g3. rewrite vnorm_axi. destruct (Rlt_dec _ _); [rewrite <- mflip_scl, mflip_id; reflexivity|apply Gam_axi]. Qed.
Lemma vget_pol p v i : (i < 3)%nat -> vget (pol p v) i = sgn p i * vget v i.
Proof. intros Hi. destruct i as [|[|[|i]]]; try lia; reflexivity. Qed.
Lemma vget_axi p v i : (i < 3)%nat -> vget (axi p v) i = - sgn p i * vget v i.
Proof. intros Hi. destruct i as [|[|[|i]]]; try lia; unfold axi, vneg, pol; cbn; ring. Qed.
Lemma mget_mflip p A i j : (i < 3)%nat -> (j < 3)%nat -> mget (mflip p A) i j = sgn p i * sgn p j * mget A i j.
Proof. intros Hi Hj. destruct i as [|[|[|i]]], j as [|[|[|j]]]; try lia; reflexivity. Qed.

(** ** matrices of signs *)
Definition is_sign (s : nat -> R) : Prop := forall i, s i * s i = 1.
Lemma nr_signs s t A : nr (signs s t A) = nr A. Proof. reflexivity. Qed.
Lemma nc_signs s t A : nc (signs s t A) = nc A. Proof. reflexivity. Qed.
Global Hint Rewrite nr_signs nc_signs : mdims.
Lemma ent_signs s t A i j : (i < nr A)%nat -> (j < nc A)%nat -> ent (signs s t A) i j = s i * t j * ent A i j.
Proof. intros. unfold signs. rewrite ent_mk by auto. reflexivity. Qed.
Global Arguments signs : simpl never.
Lemma signs_mult s t u A B : is_sign t -> nr B = nc A -> signs s t A *M signs t u B = signs s u (A *M B).
Proof.
  intros Ht D. apply mat_ext; try reflexivity. intros i j Hi Hj. mdim. rewrite ent_signs by mdim. rewrite !ent_mult. mdim. rewrite <- sum_scal_l. apply sum_ext. intros k Hk.
  rewrite !ent_signs by (mdim; lia). transitivity ((t k * t k) * (s i * u j) * (ent A i k * ent B k j)); [ring|]. rewrite Ht. ring.
Qed.
Lemma signs_T s t A : mT (signs s t A) = signs t s (mT A).
Proof. apply mat_ext; try reflexivity. intros i j Hi Hj. mdim. rewrite ent_T, !ent_signs by (mdim; lia). rewrite ent_T. ring. Qed.
Lemma signs_plus s t A B : nr A = nr B -> nc A = nc B -> signs s t A +M signs s t B = signs s t (A +M B).
Proof. intros D1 D2. apply mat_ext; try reflexivity. intros i j Hi Hj. mdim. rewrite ent_signs by mdim. rewrite !ent_plus by (mdim; lia). rewrite !ent_signs by (mdim; lia). ring. Qed.
Lemma signs_minus s t A B : nr A = nr B -> nc A = nc B -> signs s t A -M signs s t B = signs s t (A -M B).
Proof. intros D1 D2. apply mat_ext; try reflexivity. intros i j Hi Hj. mdim. rewrite ent_signs by mdim. rewrite !ent_minus by (mdim; lia). rewrite !ent_signs by (mdim; lia). ring. Qed.
Lemma signs_scl s t c A : c *S signs s t A = signs s t (c *S A).
Proof. apply mat_ext; try reflexivity. intros i j Hi Hj. mdim. rewrite ent_scl, !ent_signs by (mdim; lia). rewrite ent_scl. ring. Qed.
Lemma signs_eye s n : is_sign s -> signs s s (meye n) = meye n.
Proof. intros Hs. apply mat_ext; try reflexivity. intros i j Hi Hj. mdim. rewrite ent_signs by mdim. rewrite !ent_eye by lia. destruct (Nat.eqb_spec i j) as [->|]; [rewrite Hs|]; ring. Qed.
Lemma signs_O s t n m : signs s t (mO n m) = mO n m.
Proof. apply mat_ext; try reflexivity. intros i j Hi Hj. mdim. rewrite ent_signs by mdim. rewrite !ent_O. ring. Qed.
Lemma signs_mask s m c A : is_sign s -> signs s s (mask_diag m c A) = mask_diag m c (signs s s A).
Proof.
  intros Hs. apply mat_ext; try reflexivity. intros i j Hi Hj. change (nr (signs s s (mask_diag m c A))) with (nr A) in Hi. change (nc (signs s s (mask_diag m c A))) with (nc A) in Hj.
  rewrite ent_signs by auto. rewrite !ent_mask by auto. rewrite ent_signs by auto. destruct (m i || m j); [|reflexivity]. destruct (Nat.eqb_spec i j) as [->|]; [rewrite Hs|]; ring.
Qed.
Lemma signs_invol s t A : is_sign s -> is_sign t -> signs s t (signs s t A) = A.
Proof.
  intros Hs Ht. apply mat_ext; try reflexivity. intros i j Hi Hj. mdim. rewrite !ent_signs by mdim. transitivity ((s i * s i) * (t j * t j) * ent A i j); [ring|]. rewrite Hs, Ht. ring.
Qed.
Lemma signs_minv s S : is_sign s -> nr S = nc S -> minv (signs s s S) = option_map (signs s s) (minv S).
Proof.
  intros Hs D. destruct (minv S) as [T|] eqn:E; cbn [option_map].
  - destruct (minv_some _ _ E) as (E1 & E2 & E3 & E4 & E5). apply (minv_unique _ _ (nr S)); mdim. rewrite signs_mult by (auto; mdim). rewrite E5. apply signs_eye; auto.
  - apply minv_none_iff; [mdim|]. intros (B & B1 & B2 & B3 & B4). mdim. apply (proj1 (minv_none_iff S D)) in E. apply E. exists (signs s s B). mdim. repeat (split; [congruence|]).
    split.
    + rewrite <- (signs_invol s s S) by auto. rewrite signs_mult by (auto; mdim). rewrite B3. apply signs_eye; auto.
    + rewrite <- (signs_invol s s S) at 1 by auto. rewrite signs_mult by (auto; mdim). rewrite B4. apply signs_eye; auto.
Qed.
Lemma signs_ext s t s' t' A : (forall i, (i < nr A)%nat -> s i = s' i) -> (forall j, (j < nc A)%nat -> t j = t' j) -> signs s t A = signs s' t' A.
Proof. intros H1 H2. apply mat_ext; try reflexivity. intros i j Hi Hj. mdim. rewrite !ent_signs by mdim. rewrite H1, H2 by auto. reflexivity. Qed.

(** ** the coordinates of the error *)
Definition Dg (p : plane) (K : nat) : nat -> R := sP_sign p (9 + 3 * K).
Definition eps (K b : nat) : R := if Nat.eqb b 0 || Nat.eqb b (K + 1) then -1 else 1.
Lemma Dg_sign p K : is_sign (Dg p K).
Proof. intros i. unfold Dg, sP_sign. destruct (_ || _); rewrite ?Rmult_opp_opp; apply sgn2. Qed.
Lemma Dg_blk p K b a : (a < 3)%nat -> Dg p K (3 * b + a) = eps K b * sgn p a.
Proof.
  intros Ha. unfold Dg, sP_sign, eps. rewrite mod_lin by auto.
  destruct (Nat.ltb_spec (3 * b + a) 3), (Nat.leb_spec (9 + 3 * K - 6) (3 * b + a)), (Nat.ltb_spec (3 * b + a) (9 + 3 * K - 3)), (Nat.eqb_spec b 0), (Nat.eqb_spec b (K + 1)); try lia; cbn [orb andb]; ring.
Qed.
Lemma signs_blk p K f : signs (Dg p K) (Dg p K) (blk (3 + K) f) = blk (3 + K) (fun i j => (eps K i * eps K j) *ms mflip p (f i j)).
Proof.
  apply mat_ext; try reflexivity. intros i j Hi Hj. change (i < 3 * (3 + K))%nat in Hi. change (j < 3 * (3 + K))%nat in Hj.
  rewrite ent_signs by auto. destruct (lin_ex i) as (b & a & -> & Ha). destruct (lin_ex j) as (b' & a' & -> & Ha'). rewrite !blk_entry by lia. rewrite !Dg_blk by auto.
  assert (forall c A, mget (c *ms A) a a' = c * mget A a a') as -> by (intros c A; destruct a as [|[|[|a]]], a' as [|[|[|a']]]; try lia; reflexivity).
  rewrite mget_mflip by auto. ring.
Qed.
Lemma sX_is_sign p : is_sign (sX_sign p).
Proof. intros i. unfold sX_sign. destruct (i <? 3)%nat; [apply sgn2|ring]. Qed.
Definition mirX p := signs (sX_sign p) (sX_sign p).
Lemma mirX_sek p K A f : mirX p (sek K A f) = sek K (mflip p A) (fun k => pol p (f k)).
Proof.
  apply mat_ext; try reflexivity. intros i j Hi Hj. change (i < 3 + K)%nat in Hi. change (j < 3 + K)%nat in Hj.
  unfold mirX. rewrite ent_signs by auto. unfold sX_sign. destruct (Nat.ltb_spec i 3) as [Li|Li].
  - destruct (Nat.ltb_spec j 3) as [Lj|Lj].
    + rewrite !ent_aff_rot by lia. rewrite mget_mflip by auto. ring.
    + replace j with (3 + (j - 3))%nat by lia. rewrite !ent_aff_col by lia. rewrite vget_pol by auto. ring.
  - rewrite !ent_aff_bot by lia. destruct (Nat.eqb_spec i j) as [->|]; [|ring]. destruct (Nat.ltb_spec j 3); [lia|ring].
Qed.
Lemma mirX_form p K X : SEK K X -> mirX p X = sek K (mflip p (rot X)) (fun k => pol p (col X k)).
Proof. intros HX. rewrite (SEK_form K X HX) at 1. apply mirX_sek. Qed.
Lemma mirX_rot p K X : SEK K X -> rot (mirX p X) = mflip p (rot X). Proof. intros H. rewrite (mirX_form p K) by auto. apply rot_aff. Qed.
Lemma mirX_col p K X k : SEK K X -> (k < K)%nat -> col (mirX p X) k = pol p (col X k). Proof. intros H Hk. rewrite (mirX_form p K) by auto. rewrite col_aff by auto. reflexivity. Qed.
Lemma mirX_SEK p K X : SEK K X -> SEK K (mirX p X).
Proof. intros H. rewrite (mirX_form p K) by auto. apply SEK_sek, mflip_SO3, (SEK_SO3 _ _ H). Qed.
Lemma mirX_mult p K X Y : SEK K X -> SEK K Y -> mirX p X *M mirX p Y = mirX p (X *M Y).
Proof. intros HX HY. apply signs_mult; [apply sX_is_sign|]. rewrite (sek_rows _ _ HY), (sek_cols _ _ HX). reflexivity. Qed.
Lemma mirX_inv p K X : SEK K X -> sekinv K (mirX p X) = mirX p (sekinv K X).
Proof.
  intros HX. unfold sekinv. rewrite mirX_sek. rewrite (mirX_rot p K) by auto. rewrite mflip_T. apply aff_ext. intros k Hk. rewrite (mirX_col p K) by auto. rewrite mflip_mv, pol_neg. reflexivity.
Qed.
Lemma AdB_blk K X : AdB K X = blk (3 + K) (fun b b' => if (b <=? K) && (b' <=? K) then (if Nat.eqb b b' then rot X else if Nat.eqb b' 0 then crossm (col X (b - 1)) *m rot X else mzero) else if Nat.eqb b b' then mid else mzero)%nat.
Proof.
  rewrite <- L2R_AdB. apply mat_ext; [rewrite nr_L2R; mdim; lia|rewrite nc_L2R; mdim; lia|].
  intros i j Hi Hj. rewrite nr_L2R in Hi. rewrite nc_L2R in Hj. destruct (lin_ex i) as (b & a & -> & Ha). destruct (lin_ex j) as (b' & a' & -> & Ha').
  rewrite blk_entry by lia. destruct (Nat.leb_spec b K) as [L|L]; [destruct (Nat.leb_spec b' K) as [L'|L']|]; cbn [andb].
  - rewrite L2R_blk by lia. reflexivity.
  - rewrite L2R_bias by lia. destruct (Nat.eqb_spec b b'); [lia|]. rewrite mget_zero. destruct (Nat.eqb_spec (3 * b + a) (3 * b' + a')); [lia|reflexivity].
  - rewrite L2R_bias by lia. destruct (Nat.eqb_spec b b') as [->|].
    + rewrite mget_id by auto. destruct (Nat.eqb_spec (3 * b' + a) (3 * b' + a')), (Nat.eqb_spec a a'); try lia; reflexivity.
    + rewrite mget_zero. destruct (Nat.eqb_spec (3 * b + a) (3 * b' + a')); [lia|reflexivity].
Qed.
Lemma eps2 K b : eps K b * eps K b = 1. Proof. unfold eps. destruct (_ || _); ring. Qed.
Lemma ms_1 A : 1 *ms A = A. Proof. destruct A; ring3. Qed.
Lemma ms_m1 A : (-1) *ms A = mneg A. Proof. destruct A; ring3. Qed.
Lemma ms_0 c : c *ms mzero = mzero. Proof. ring3. Qed.
Lemma AdB_mir p K X : SEK K X -> AdB K (mirX p X) = signs (Dg p K) (Dg p K) (AdB K X).
Proof.
  intros HX. rewrite !AdB_blk, signs_blk. apply blk_ext. intros i j Hi Hj.
  destruct (Nat.leb_spec i K) as [L|L]; cbn [andb].
  - destruct (Nat.leb_spec j K) as [L'|L']; cbn [andb].
    + destruct (Nat.eqb_spec i j) as [->|Hne]; [rewrite eps2, ms_1; apply (mirX_rot p K X HX)|].
      destruct (Nat.eqb_spec j 0) as [->|]; [|rewrite mflip_0, ms_0; reflexivity].
      rewrite (mirX_rot p K), (mirX_col p K) by (auto; lia). rewrite crossm_pol, mflip_mul. unfold eps. destruct (Nat.eqb_spec i 0); [lia|]. destruct (Nat.eqb_spec i (K + 1)); [lia|]. cbn [orb Nat.eqb].
      replace (1 * -1) with (-1) by ring. rewrite ms_m1, mflip_neg. f_equal. generalize (crossm (col X (i - 1))), (rot X). intros [] []. ring3.
    + destruct (Nat.eqb_spec i j); [lia|]. rewrite mflip_0, ms_0. reflexivity.
  - destruct (Nat.eqb_spec i j) as [->|Hne]; [rewrite eps2, ms_1, mflip_id; reflexivity|]. rewrite mflip_0, ms_0. reflexivity.
Qed.
