(** Proofs: propagation and corrections commute with a rotation of the world that fixes gravity (left-invariant convention). *)
From Coq Require Import Reals ZArith List Bool Lia Lra.
From Verif Require Import Res Vec3 Mat LieGroup MatInv Psd Spec SpecState LieSO3 LieSEK LieThms RobotState StateProofs StateHist StateMisc Inekf SpecFilter
  InekfProofs InekfThms Imu Propagation SpecProp Blk PsdBlk PropagationProofs PropagationThms PropagationLog Queue VelCorr LegCorr SpecCorr ImuNeg VelThms LegThms LegAdd LegLoop LegUpd LegHist CorrInno ConvLeg ConvFilter ConvEst
  Estimator SpecEst SpecConv SpecYaw YawFilter.
Import ListNotations.
Local Open Scope R_scope.

Lemma blk_entry n f b a b' a' : (b < n)%nat -> (b' < n)%nat -> (a < 3)%nat -> (a' < 3)%nat -> ent (blk n f) (3 * b + a) (3 * b' + a') = mget (f b b') a a'.
Proof. intros. unfold blk. rewrite ent_mk by lia. rewrite !div_lin, !mod_lin by auto. reflexivity. Qed.
Lemma AdB_lead K R : AdB K (lead K R) = bdiag (3 + K) (fun b => if (b <=? K)%nat then R else mid).
Proof.
  rewrite <- L2R_AdB. apply mat_ext; [unfold bdiag; cbn [L2R]; mdim; rewrite nr_L2R; lia|unfold bdiag; mdim; rewrite nc_L2R; lia|].
  intros i j Hi Hj. rewrite nr_L2R in Hi. rewrite nc_L2R in Hj. destruct (lin_ex i) as (b & a & -> & Ha). destruct (lin_ex j) as (b' & a' & -> & Ha').
  unfold bdiag. rewrite blk_entry by lia. destruct (Nat.eqb_spec b b') as [->|Hne].
  - destruct (Nat.leb_spec b' K).
    + rewrite L2R_blk by lia. rewrite Nat.eqb_refl. unfold lead. rewrite rot_aff. reflexivity.
    + rewrite L2R_bias by lia. rewrite mget_id by auto. destruct (Nat.eqb_spec (3 * b' + a) (3 * b' + a')), (Nat.eqb_spec a a'); try lia; reflexivity.
  - rewrite mget_zero. destruct (le_lt_dec b K) as [L|L]; [destruct (le_lt_dec b' K) as [L'|L']|].
    + rewrite L2R_blk by lia. destruct (Nat.eqb_spec b b'); [lia|]. destruct (Nat.eqb_spec b' 0); [|apply mget_zero].
      unfold lead. rewrite col_aff by lia. replace (crossm vzero *m rot (sek K R (fun _ => vzero))) with mzero; [apply mget_zero|]. generalize (rot (sek K R (fun _ : nat => vzero))). intros M. unfold crossm. destruct M. ring3.
    + rewrite L2R_bias by lia. destruct (Nat.eqb_spec (3 * b + a) (3 * b' + a')); [lia|reflexivity].
    + rewrite L2R_bias by lia. destruct (Nat.eqb_spec (3 * b + a) (3 * b' + a')); [lia|reflexivity].
Qed.
(** rows of a block-diagonal product *)
Lemma bdiag_l n f M b a j : nr M = (3 * n)%nat -> (b < n)%nat -> (a < 3)%nat ->
  ent (bdiag n f *M M) (3 * b + a) j = mget (f b) a 0 * ent M (3 * b) j + mget (f b) a 1 * ent M (3 * b + 1) j + mget (f b) a 2 * ent M (3 * b + 2) j.
Proof.
  intros HM Hb Ha. rewrite ent_mult. unfold bdiag at 1. change (nc (blk n (fun i j : nat => if (i =? j)%nat then f i else mzero))) with (3 * n)%nat.
  rewrite sum_blocks. rewrite (sum_delta' _ b); auto.
  - unfold bdiag. replace (3 * b)%nat with (3 * b + 0)%nat at 2 by lia. rewrite !blk_entry by lia. rewrite Nat.eqb_refl. reflexivity.
  - intros k Hk Hne. unfold bdiag. replace (3 * k)%nat with (3 * k + 0)%nat at 1 by lia. rewrite !blk_entry by lia. destruct (Nat.eqb_spec b k); [lia|]. rewrite !mget_zero. ring.
Qed.
Lemma bdiag_r n f M i b a : nc M = (3 * n)%nat -> (b < n)%nat -> (a < 3)%nat ->
  ent (M *M bdiag n f) i (3 * b + a) = ent M i (3 * b) * mget (f b) 0 a + ent M i (3 * b + 1) * mget (f b) 1 a + ent M i (3 * b + 2) * mget (f b) 2 a.
Proof.
  intros HM Hb Ha. rewrite ent_mult, HM.
  rewrite sum_blocks. rewrite (sum_delta' _ b); auto.
  - unfold bdiag. replace (3 * b)%nat with (3 * b + 0)%nat at 2 by lia. rewrite !blk_entry by lia. rewrite Nat.eqb_refl. reflexivity.
  - intros k Hk Hne. unfold bdiag. replace (3 * k)%nat with (3 * k + 0)%nat at 2 by lia. rewrite !blk_entry by lia. destruct (Nat.eqb_spec k b); [lia|]. rewrite !mget_zero. ring.
Qed.
Lemma bdiag_orth n R : SO3 R -> mT (bdiag n (fun _ => R)) *M bdiag n (fun _ => R) = meye (3 * n).
Proof.
  intros [HR _]. rewrite bdiag_T, bdiag_mult. rewrite blk_eye. unfold bdiag. apply blk_ext. intros i j Hi Hj. rewrite HR. reflexivity.
Qed.

(** ** velocity correction *)
Lemma vel_H_lead K R : (1 <= K)%nat -> vel_H K *M AdB K (lead K R) = bdiag 1 (fun _ => R) *M vel_H K.
Proof.
  intros HK. rewrite AdB_lead. apply mat_ext; [reflexivity|unfold bdiag; rewrite !nc_mult; unfold vel_H; mdim; rewrite nc_mk; lia|].
  intros i j Hi Hj. change (i < 3)%nat in Hi. change (j < 3 * (3 + K))%nat in Hj. destruct (lin_ex j) as (b & a & -> & Ha).
  rewrite bdiag_r by (try reflexivity; unfold vel_H; rewrite ?nc_mk; lia). replace i with (3 * 0 + i)%nat at 4 by lia. rewrite (bdiag_l 1) by (try reflexivity; lia).
  unfold vel_H. rewrite !ent_mk by lia. destruct (Nat.eqb_spec b 1) as [->|].
  - change (1 <=? K)%nat with (1 <=? K)%nat. destruct (Nat.leb_spec 1 K); [|lia].
    destruct i as [|[|[|i]]]; try lia; destruct a as [|[|[|a]]]; try lia; cbn [Nat.eqb Nat.mul Nat.add]; ring.
  - destruct i as [|[|[|i]]]; try lia; destruct a as [|[|[|a]]]; try lia; repeat match goal with |- context [Nat.eqb ?x ?y] => destruct (Nat.eqb_spec x y); try lia end; ring.
Qed.
Lemma bdiag1 R : bdiag 1 (fun _ => R) = ofM3 R.
Proof.
  apply mat_ext; [reflexivity|reflexivity|]. intros i j Hi Hj. change (i < 3)%nat in Hi. change (j < 3)%nat in Hj. unfold bdiag. replace i with (3 * 0 + i)%nat at 1 by lia. replace j with (3 * 0 + j)%nat at 1 by lia.
  rewrite blk_entry by lia. rewrite ent_ofM3 by auto. reflexivity.
Qed.
Lemma ofM3_mul A B : ofM3 A *M ofM3 B = ofM3 (A *m B).
Proof. apply mat_ext; [reflexivity|reflexivity|]. intros i j Hi Hj. change (i < 3)%nat in Hi. change (j < 3)%nat in Hj. rewrite ent_mult. change (nc (ofM3 A)) with 3%nat. cbn [sum]. rewrite !ent_ofM3 by lia. rewrite mget_mul by auto. ring. Qed.
Lemma ofM3_ofV3 A u : ofM3 A *M ofV3 u = ofV3 (A *v u).
Proof. apply mat_ext; [reflexivity|reflexivity|]. intros i j Hi Hj. change (i < 3)%nat in Hi. change (j < 1)%nat in Hj. assert (j = 0)%nat as -> by lia. rewrite ent_mult. change (nc (ofM3 A)) with 3%nat. cbn [sum]. rewrite !ent_ofM3, !ent_ofV3 by lia. rewrite vget_mv by auto. ring. Qed.
Lemma ofM3_T A : mT (ofM3 A) = ofM3 (mtr A).
Proof. apply mat_ext; [reflexivity|reflexivity|]. intros i j Hi Hj. change (i < 3)%nat in Hi. change (j < 3)%nat in Hj. rewrite ent_T, !ent_ofM3 by lia. destruct A, i as [|[|[|i]]], j as [|[|[|j]]]; try lia; reflexivity. Qed.

Section Turn.
Variable R : M3.
Hypothesis HR : SO3 R.

Lemma vel_update_turn K c m s : wfp K s -> vc_err c = LeftInvariant -> vel_update c m (turnL R s) = rmap (turnL R) (vel_update c m s).
Proof.
  intros W E. rewrite (vel_update_eq K) by (apply turnL_wfp; auto). rewrite (vel_update_eq K c m s) by auto. rewrite E.
  pose proof W as [[HX HT1 HT2 HP1 HP2] HK Hty HQ1 HQ2].
  set (y := vc_R c *v (vc_scale c *s vm_v m)).
  assert (vel_innovation (turnL R s) y = ofM3 R *M vel_innovation s y) as ->.
  { unfold vel_innovation. change (sX (turnL R s)) with (turn_X R (sX s)). rewrite (turn_rot K), (turn_col K) by (auto; lia). rewrite ofM3_ofV3. f_equal. destruct R, (rot (sX s)), y, (col (sX s) 0). ring3. }
  assert (vel_N (turnL R s) (vc_cov c) = ofM3 R *M vel_N s (vc_cov c) *M mT (ofM3 R)) as ->.
  { unfold vel_N. change (sX (turnL R s)) with (turn_X R (sX s)). rewrite (turn_rot K) by auto. rewrite ofM3_T, !ofM3_mul. f_equal. destruct R, (rot (sX s)), (vc_cov c). ring3. }
  change (set_time (turnL R s) (vm_t m)) with (turnL R (set_time s (vm_t m))).
  apply (CR_turn K 3); auto.
  - split; auto.
  - apply vel_measurement.
  - rewrite <- bdiag1. apply (bdiag_orth 1); auto.
  - rewrite <- bdiag1. apply vel_H_lead. lia.
Qed.
Lemma vel_Correct_turn K c s sched : wfp K s -> vc_err c = LeftInvariant ->
  vel_Correct c (turnL R s) sched = rmap (fun '(b, c', s') => (b, c', turnL R s')) (vel_Correct c s sched).
Proof.
  intros W E. unfold vel_Correct. change (get_propagate_time (turnL R s)) with (get_propagate_time s).
  destruct (vc_queue c ++ hd_batch sched) as [|m q]; [reflexivity|].
  destruct (get_propagate_time s) as [tp|]; [|reflexivity]. cbn [bind].
  destruct (not_past tp (vm_t m)); [reflexivity|].
  destruct (if too_old (vc_thr c) tp (vm_t m) then _ else _) as [[r q'] bs]. destruct r as [m'|]; [|reflexivity].
  rewrite (vel_update_turn K) by auto. destruct (vel_update c m' s); reflexivity.
Qed.

(** ** legs *)
Lemma leg_Z_turn K X o : SEK K X -> (2 <= K)%nat -> (forall f, In f o -> (2 + ft_k f < K)%nat) -> leg_Z (turn_X R X) o = bdiag (length o) (fun _ => R) *M leg_Z X o.
Proof.
  intros HX HK Ho. apply mat_ext; [reflexivity|reflexivity|]. intros i j Hi Hj. change (i < 3 * length o)%nat in Hi. change (j < 1)%nat in Hj. assert (j = 0)%nat as -> by lia.
  destruct (lin_ex i) as (b & a & -> & Ha). rewrite bdiag_l by (try reflexivity; lia). replace (3 * b)%nat with (3 * b + 0)%nat at 2 by lia. unfold leg_Z. rewrite !ent_mk by lia. rewrite !div_lin, !mod_lin by lia.
  assert (In (nth b o no_foot) o) as Hin by (apply nth_In; lia). specialize (Ho _ Hin). set (f := nth b o no_foot) in *.
  unfold foot_innovation. rewrite (turn_rot K), !(turn_col K) by (auto; lia). rewrite <- vget_mv by auto. f_equal. destruct R, (rot X), (ft_pos f), (col X (2 + ft_k f)), (col X 1). ring3.
Qed.
Lemma leg_N_bdiag X o : leg_N X o = bdiag (length o) (fun b => rot X *m ft_cov (nth b o no_foot) *m mtr (rot X)).
Proof.
  apply mat_ext; [reflexivity|reflexivity|]. intros i j Hi Hj. change (i < 3 * length o)%nat in Hi. change (j < 3 * length o)%nat in Hj.
  destruct (lin_ex i) as (b & a & -> & Ha). destruct (lin_ex j) as (b' & a' & -> & Ha'). unfold leg_N, bdiag. rewrite blk_entry, ent_mk by lia. rewrite !div_lin, !mod_lin by lia.
  destruct (Nat.eqb_spec b b'); [reflexivity|]. rewrite mget_zero. reflexivity.
Qed.
Lemma leg_N_turn K X o : SEK K X -> leg_N (turn_X R X) o = bdiag (length o) (fun _ => R) *M leg_N X o *M mT (bdiag (length o) (fun _ => R)).
Proof.
  intros HX. rewrite !leg_N_bdiag, bdiag_T, !bdiag_mult. apply bdiag_ext. intros i Hi. rewrite (turn_rot K) by auto. destruct R, (rot X), (ft_cov (nth i o no_foot)). ring3.
Qed.
Lemma leg_H_turn K o : (2 <= K)%nat -> (forall f, In f o -> (2 + ft_k f < K)%nat) -> leg_H K o *M AdB K (lead K R) = bdiag (length o) (fun _ => R) *M leg_H K o.
Proof.
  intros HK Ho. rewrite AdB_lead. apply mat_ext; [reflexivity|unfold bdiag; rewrite !nc_mult; unfold leg_H; mdim; rewrite nc_mk; lia|].
  intros i j Hi Hj. change (i < 3 * length o)%nat in Hi. change (j < 3 * (3 + K))%nat in Hj. destruct (lin_ex i) as (c & d & -> & Hd). destruct (lin_ex j) as (b & a & -> & Ha).
  rewrite bdiag_r by (try reflexivity; unfold leg_H; rewrite ?nc_mk; lia). rewrite bdiag_l by (try reflexivity; lia).
  assert (In (nth c o no_foot) o) as Hin by (apply nth_In; lia). specialize (Ho _ Hin).
  assert (forall x y, (x < 3)%nat -> (y < 3)%nat -> ent (leg_H K o) (3 * c + x) (3 * b + y) =
    if Nat.eqb x y then (if Nat.eqb b (3 + ft_k (nth c o no_foot)) then 1 else if Nat.eqb b 2 then -1 else 0) else 0) as HE.
  { intros x y Hx Hy. unfold leg_H. rewrite ent_mk by lia. rewrite !div_lin, !mod_lin by lia. set (k := ft_k (nth c o no_foot)).
    destruct (Nat.eqb_spec x y), (Nat.eqb_spec b (3 + k)), (Nat.eqb_spec b 2), (Nat.eqb_spec (3 * b + y) (9 + 3 * k + x)), (Nat.eqb_spec (3 * b + y) (6 + x)); try lia; reflexivity. }
  replace (3 * b)%nat with (3 * b + 0)%nat at 1 by lia. replace (3 * c)%nat with (3 * c + 0)%nat at 4 by lia. rewrite !HE by lia.
  set (h := if Nat.eqb b (3 + ft_k (nth c o no_foot)) then 1 else if Nat.eqb b 2 then -1 else 0).
  assert (h = 0 \/ (b <= K)%nat) as [E|E].
  { unfold h. destruct (Nat.eqb_spec b (3 + ft_k (nth c o no_foot))); [right; lia|]. destruct (Nat.eqb_spec b 2); [right; lia|left; reflexivity]. }
  - rewrite E. destruct d as [|[|[|d]]]; try lia; destruct a as [|[|[|a]]]; try lia; cbn [Nat.eqb]; ring.
  - destruct (Nat.leb_spec b K); [|lia]. destruct d as [|[|[|d]]]; try lia; destruct a as [|[|[|a]]]; try lia; cbn [Nat.eqb]; ring.
Qed.
Lemma tracks_turn c h s ids : tracks c h s ids -> tracks c h (turnL R s) ids.
Proof. intros T. apply (tracks_meta c h s); auto. apply turnL_wf; auto. apply T. Qed.

Lemma del_turn h s i h1 s1 h2 s2 : del_aug_state h s i = Ok (h1, s1) -> del_aug_state h (turnL R s) i = Ok (h2, s2) -> h2 = h1 /\ s2 = set_X s1 (sX s2).
Proof.
  unfold del_aug_state, dimX. change (scmap (turnL R s)) with (scmap s). change (nc (sX (turnL R s))) with (nc (sX s)). intros H1 H2.
  apply bind_inv in H1. destruct H1 as ([h0 m0] & E0 & H1). rewrite E0 in H2. cbn [bind] in H2.
  apply bind_inv in H1. destruct H1 as ([] & E1 & H1). rewrite E1 in H2. cbn [bind] in H2.
  apply bind_inv in H1. destruct H1 as (X0 & E2 & H1). apply bind_inv in H2. destruct H2 as (X1 & E3 & H2).
  unfold del_aug_cov, del_aug_noise_cov in *. cbn [sP sQc set_X set_cmap set_P turnL turned turn_cov] in *.
  apply bind_inv in H1. destruct H1 as (s3 & E4 & H1). apply bind_inv in E4. destruct E4 as (k & E4 & E5). rewrite E4 in H2. cbn [bind] in H2.
  apply bind_inv in E5. destruct E5 as (P3 & E5 & E6). injection E6 as <-. rewrite E5 in H2. cbn [bind] in H2. rewrite E4 in H1. cbn [bind] in H1. cbn [sQc set_P set_X set_cmap] in *.
  apply bind_inv in H1. destruct H1 as (s5 & H1 & H1'). apply bind_inv in H1. destruct H1 as (Q & E6 & H1). injection H1 as <-. injection H1' as <- <-.
  change (sQc (turnL R s)) with (sQc s) in H2. rewrite E6 in H2. cbn [bind] in H2. injection H2 as <- <-. split; reflexivity.
Qed.
Lemma set_X_eta s X : X = sX s -> set_X s X = s. Proof. intros ->. destruct s; reflexivity. Qed.
Lemma turnL_set_X s : turnL R s = set_X s (turn_X R (sX s)).
Proof. destruct s; reflexivity. Qed.
Lemma turn_drop i X : (3 <= i)%nat -> (4 <= nr X)%nat -> turn_X R (drop_rc i 1 X) = drop_rc i 1 (turn_X R X).
Proof.
  intros Hi Hn. apply mat_ext; [reflexivity|reflexivity|]. intros r c Hr Hc. change (r < nr X - 1)%nat in Hr. change (c < nc X - 1)%nat in Hc.
  assert (skip i 1 r < nr X)%nat as S1 by (unfold skip; destruct (Nat.ltb_spec r i); lia). assert (skip i 1 c < nc X)%nat as S2 by (unfold skip; destruct (Nat.ltb_spec c i); lia).
  unfold turn_X. rewrite ent_mk by (rewrite ?nr_drop, ?nc_drop; lia). unfold drop_rc at 5. rewrite !nr_mk, !nc_mk. rewrite ent_mk by lia.
  rewrite ent_mk by lia. unfold drop_rc. rewrite !(ent_mk (nr X - 1)) by lia.
  assert (forall q, (q < 3)%nat -> skip i 1 q = q) as SK by (intros q Hq; unfold skip; destruct (Nat.ltb_spec q i); lia).
  destruct (Nat.ltb_spec r 3).
  - rewrite (SK r), (SK 0%nat), (SK 1%nat), (SK 2%nat) by lia. destruct (Nat.ltb_spec r 3); [|lia]. reflexivity.
  - destruct (Nat.ltb_spec (skip i 1 r) 3) as [L|L]; [|reflexivity]. unfold skip in L. destruct (Nat.ltb_spec r i); lia.
Qed.
Lemma remove_turn c h s ids id a : tracks c h s ids -> lc_map c id = Some a ->
  exists h' s', remove_leg (h, s, lc_map c) id = Ok (h', s', mupd (lc_map c) id None) /\
    remove_leg (h, turnL R s, lc_map c) id = Ok (h', turnL R s', mupd (lc_map c) id None) /\
    tracks (lc_set_map c (mupd (lc_map c) id None)) h' s' (remove_nth (age a ids) ids).
Proof.
  intros T E. destruct (remove_leg_ok c h s ids id a T E) as (h1 & s1 & R1 & T1 & _ & P1 & X1 & _).
  destruct (remove_leg_ok c h (turnL R s) ids id a (tracks_turn _ _ _ _ T) E) as (h2 & s2 & R2 & _ & _ & P2 & X2 & _).
  exists h1, s1. split; [exact R1|]. split; [|exact T1].
  assert (h2 = h1 /\ s2 = set_X s1 (sX s2)) as [-> E2].
  { unfold remove_leg in R1, R2. apply bind_inv in R1. destruct R1 as (z & Ez & R1). rewrite Ez in R2. cbn [bind] in R2.
    apply bind_inv in R1. destruct R1 as (i & Ei & R1). rewrite Ei in R2. cbn [bind] in R2.
    apply bind_inv in R1. destruct R1 as ([h3 s3] & R1 & R1'). injection R1' as <- <-.
    apply bind_inv in R2. destruct R2 as ([h4 s4] & R2 & R2'). injection R2' as <- <-.
    exact (del_turn _ _ _ _ _ _ _ R1 R2). }
  rewrite R2. repeat f_equal. rewrite E2, turnL_set_X. f_equal. rewrite X2, X1. change (sX (turnL R s)) with (turn_X R (sX s)). symmetry. apply turn_drop; [lia|].
  destruct (tr_wf _ _ _ _ T) as [[HX _ _ _ _] _ _ _ _]. rewrite (sek_rows _ _ HX). lia.
Qed.
Lemma removes_turn c : forall rem h s ids, tracks c h s ids -> NoDup rem -> (forall id, In id rem -> lc_map c id <> None) ->
  foldM remove_leg (h, turnL R s, lc_map c) rem = rmap (fun '(h', s', m') => (h', turnL R s', m')) (foldM remove_leg (h, s, lc_map c) rem).
Proof.
  intros rem. revert c. induction rem as [|id rem IH]; intros c h s ids T ND Hin; cbn [foldM]; [reflexivity|].
  inversion ND; subst. destruct (lc_map c id) as [a|] eqn:Ea; [|exfalso; apply (Hin id); [left; auto|auto]].
  destruct (remove_turn c h s ids id a T Ea) as (h1 & s1 & E1 & E2 & T1). rewrite E1, E2. cbn [bind].
  apply (IH (lc_set_map c (mupd (lc_map c) id None)) h1 s1 _ T1); auto.
  cbn [lc_map lc_set_map]. intros j Hj. unfold mupd. destruct (Nat.eqb_spec j id); [subst; tauto|]. apply Hin. right; auto.
Qed.
Lemma add_turn c h s ids id pose cov : tracks c h s ids -> lc_map c id = None -> lc_err c = LeftInvariant ->
  exists h' s', add_leg c (h, s, lc_map c, sP s) (id, pose, cov) = Ok (h', s', mupd (lc_map c) id (Some (length h)), sP s') /\
    add_leg c (h, turnL R s, lc_map c, sP (turnL R s)) (id, pose, cov) = Ok (h', turnL R s', mupd (lc_map c) id (Some (length h)), sP (turnL R s')) /\
    tracks (lc_set_map c (mupd (lc_map c) id (Some (length h)))) h' s' (ids ++ [length h]).
Proof.
  intros T E He. destruct (add_leg_ok c h s ids id pose cov T E) as (h1 & s1 & R1 & T1 & _ & P1 & X1 & _).
  destruct (add_leg_ok c h (turnL R s) ids id pose cov (tracks_turn _ _ _ _ T) E) as (h2 & s2 & R2 & _ & _ & P2 & X2 & _).
  exists h1, s1. split; [exact R1|]. split; [|exact T1].
  destruct (tr_wf _ _ _ _ T) as [[HX HT1 _ HP1 HP2] HK _ _ _].
  assert (sP s2 = sP s1) as EP. { rewrite P2, P1, He. reflexivity. }
  assert (sX s2 = turn_X R (sX s1)) as EX.
  { assert (SEK (S (2 + length ids)) (sX s1)) as HX1 by (rewrite X1; apply SEK_sek, HX). rewrite (turn_X_sek _ R _ HX1). rewrite X2.
    change (sX (turnL R s)) with (turn_X R (sX s)). rewrite (turn_rot (2 + length ids)) by auto.
    assert (rot (sX s1) = rot (sX s)) as -> by (rewrite X1; apply rot_aff). apply aff_ext. intros k Hk. rewrite X1, col_aff by auto.
    destruct (Nat.eqb_spec k (2 + length ids)); rewrite (turn_col (2 + length ids)) by (auto; lia); [|reflexivity]. destruct R, (rot (sX s)), pose, (col (sX s) 1). ring3. }
  assert (h2 = h1 /\ s2 = set_X (set_P s1 (sP s2)) (sX s2)) as [-> E2].
  { unfold add_leg in R1, R2.
    apply bind_inv in R1. destruct R1 as (p & Ep & R1). apply bind_inv in R2. destruct R2 as (p' & Ep' & R2).
    apply bind_inv in R1. destruct R1 as (r & Er & R1). apply bind_inv in R2. destruct R2 as (r' & Er' & R2).
    change (stype (turnL R s)) with (stype s) in R2.
    apply bind_inv in R1. destruct R1 as ([F G] & _ & R1). apply bind_inv in R2. destruct R2 as ([F' G'] & _ & R2).
    do 5 (apply bind_inv in R1; destruct R1 as (? & _ & R1); apply bind_inv in R2; destruct R2 as (? & _ & R2)).
    cbn [heap_new] in R1, R2. change (dimX (turnL R s)) with (dimX s) in R2.
    apply bind_inv in R1. destruct R1 as ([s3 i] & R1 & R1'). apply bind_inv in R2. destruct R2 as ([s4 i'] & R2 & R2').
    apply bind_inv in R1'. destruct R1' as (h3 & E3 & R1'). apply bind_inv in R2'. destruct R2' as (h4 & E4 & R2').
    assert (h1 = h3 /\ s1 = s3) as [-> ->] by (injection R1'; auto). assert (h2 = h4 /\ s2 = s4) as [-> ->] by (injection R2'; auto).
    clear R1' R2'. revert R1 R2. unfold add_aug_state, dimX, dimQc, dimTheta. change (nc (sX (turnL R s))) with (nc (sX s)). cbn [sX sTheta sQc set_P set_X turnL turned]. intros R1 R2.
    apply bind_inv in R1. destruct R1 as (Xa & EXa & R1). apply bind_inv in R2. destruct R2 as (Xb & EXb & R2).
    assert (nc Xb = nc Xa) as ED.
    { assert (forall A i j B C, cput A i j B = Ok C -> nc C = nc A) as HC by (intros A u v B C; unfold cput; match goal with |- context [if ?b then _ else _] => destruct b end; [intros EQ; injection EQ as <-; reflexivity|discriminate]).
      rewrite (HC _ _ _ _ _ EXa), (HC _ _ _ _ _ EXb). reflexivity. }
    cbn [sX sTheta sQc set_P set_X] in R1, R2. rewrite ED in R2.
    repeat (match type of R1 with bind ?x _ = _ => destruct x; [cbn [bind] in R1, R2|discriminate] end).
    injection R1 as <- <-. injection R2 as <- <-. cbn [sX set_X set_P set_Qc set_cmap dimX] in E4. rewrite ?ED in E4. split; [congruence|reflexivity]. }
  rewrite R2. assert (s2 = turnL R s1) as -> by (rewrite E2, EP, EX, turnL_set_X; destruct s1; reflexivity). reflexivity.
Qed.
Lemma adds_turn c : forall new h s ids, tracks c h s ids -> NoDup (map nid new) -> (forall id, In id (map nid new) -> lc_map c id = None) -> lc_err c = LeftInvariant ->
  foldM (add_leg c) (h, turnL R s, lc_map c, sP (turnL R s)) new =
  rmap (fun '(h', s', m', P') => (h', turnL R s', m', sP (turnL R s'))) (foldM (add_leg c) (h, s, lc_map c, sP s) new).
Proof.
  intros new. revert c. induction new as [|[[id f] N] new IH]; intros c h s ids T ND Hin He; cbn [foldM]; [reflexivity|].
  inversion ND; subst. cbn [map nid fst] in *.
  destruct (add_turn c h s ids id f N T (Hin id (or_introl eq_refl)) He) as (h1 & s1 & E1 & E2 & T1). rewrite E1, E2. cbn [bind].
  apply (IH (lc_set_map c (mupd (lc_map c) id (Some (length h)))) h1 s1 _ T1); auto.
  cbn [lc_map lc_set_map]. intros j Hj. unfold mupd. destruct (Nat.eqb_spec j id) as [->|]; [exfalso; auto|]. apply Hin. right; auto.
Qed.
Lemma leg_update_turn c h m s ids : tracks c h s ids -> psd (sP s) -> leg_noise_ok c -> lc_err c = LeftInvariant ->
  leg_update c h m (turnL R s) = rmap (fun '(c', h', s') => (c', h', turnL R s')) (leg_update c h m s).
Proof.
  intros T HP HN He. rewrite (leg_update_eq c h m s ids T). rewrite (leg_update_eq _ h m _ ids (tracks_turn _ _ _ _ T)). cbv zeta. rewrite He.
  destruct (leg_corrected_ex c h m s ids T HP HN) as (s1 & HC & HP1). destruct (corrected_tracks c h m s s1 ids T HC) as [T1 _].
  change (sX (turnL R s)) with (turn_X R (sX s)). change (set_time (turnL R s) (lm_t m)) with (turnL R (set_time s (lm_t m))).
  set (o := feet c h 0 (lm_legs m)) in *.
  assert (wf (2 + length ids) (set_time s (lm_t m))) as W' by (destruct (tr_wf _ _ _ _ T) as [[] _ _ _ _]; split; auto).
  assert (forall f, In f o -> (2 + ft_k f < 2 + length ids)%nat) as Ho.
  { intros f Hf. destruct (CorrInno.feet_in _ _ _ _ _ Hf) as (i & oo & _ & _ & Hc & _). pose proof (contact_lt _ _ _ _ _ _ T Hc). lia. }
  pose proof (wf_X _ _ W') as HX. cbn [sX set_time] in HX.
  assert ((if Nat.eqb (length o) 0 then Ok (turnL R (set_time s (lm_t m))) else CorrectRightInvariant (leg_Z (turn_X R (sX s)) o) (leg_H (2 + length ids) o) (leg_N (turn_X R (sX s)) o) (turnL R (set_time s (lm_t m))) LeftInvariant) = Ok (turnL R s1)) as ->.
  { red in HC. fold o in HC. destruct (Nat.eqb (length o) 0); [congruence|].
    rewrite (leg_Z_turn (2 + length ids)), (leg_N_turn (2 + length ids)) by (auto; lia).
    rewrite (CR_turn (2 + length ids) (3 * length o)); auto using leg_measurement, bdiag_orth.
    - rewrite He in HC. rewrite HC. reflexivity.
    - apply leg_H_turn; [lia|auto]. }
  assert ((if Nat.eqb (length o) 0 then Ok (set_time s (lm_t m)) else CorrectRightInvariant (leg_Z (sX s) o) (leg_H (2 + length ids) o) (leg_N (sX s) o) (set_time s (lm_t m)) LeftInvariant) = Ok s1) as ->.
  { red in HC. fold o in HC. destruct (Nat.eqb (length o) 0); [congruence|]. rewrite He in HC. exact HC. }
  cbn [bind]. rewrite (removes_turn c _ _ _ _ T1 (removed_nodup _ _ _)).
  2:{ intros id Hid. apply removed_spec in Hid. destruct Hid as (? & _ & _ & _ & H). exact H. }
  destruct (remove_legs_ok c (removed c 0 (lm_legs m)) h s1 ids T1 (removed_nodup _ _ _)) as (h2 & s2 & m2 & ids2 & F1 & F2 & F3 & _).
  { intros id Hid. apply removed_spec in Hid. destruct Hid as (? & _ & _ & _ & H). exact H. }
  rewrite F1. cbn [rmap bind].
  pose proof (adds_turn (lc_set_map c m2) (added c 0 (lm_legs m)) h2 s2 ids2 F3 (added_nodup _ _ _)) as EA.
  cbn [lc_map lc_set_map] in EA. change (add_leg (lc_set_map c m2)) with (add_leg c) in EA.
  rewrite EA; auto.
  - destruct (foldM (add_leg c) (h2, s2, m2, sP s2) _) as [[[[? ?] ?] ?]|]; reflexivity.
  - intros id Hid. apply added_spec in Hid. destruct Hid as (? & _ & _ & _ & H). rewrite F2. unfold mupds. rewrite H. destruct (in_dec _ _ _); reflexivity.
Qed.
Lemma leg_Correct_turn c h s ids sched : tracks c h s ids -> psd (sP s) -> leg_noise_ok c -> lc_err c = LeftInvariant ->
  leg_Correct c h (turnL R s) sched = rmap (fun '(b, c', h', s') => (b, c', h', turnL R s')) (leg_Correct c h s sched).
Proof.
  intros T HP HN He. unfold leg_Correct.
  change (get_propagate_time (turnL R s)) with (get_propagate_time s).
  destruct (lc_queue c ++ hd_batch sched) as [|m q]; [reflexivity|].
  destruct (get_propagate_time s) as [tp|]; [|reflexivity]. cbn [bind].
  destruct (if too_old (lc_thr c) tp (lm_t m) then _ else _) as [[r q'] bs]. destruct r as [m'|]; [|reflexivity].
  rewrite (leg_update_turn _ h m' s ids (tracks_queue _ _ _ _ _ T) HP HN He). destruct (leg_update _ h m' s) as [[[? ?] ?]|]; reflexivity.
Qed.

(** ** propagation *)
Hypothesis Hg : R *v g_ = g_.
Lemma stepX_turn K X w a dt : (2 <= K)%nat -> SEK K X -> stepX K (turn_X R X) w a dt = turn_X R (stepX K X w a dt).
Proof.
  intros HK HX. assert (SEK K (stepX K X w a dt)) as HS by (apply SEK_sek, SO3_mul; [apply HX|apply expSO3_SO3]).
  rewrite (turn_X_sek K R _ HS). unfold stepX at 1. rewrite (turn_rot K) by auto.
  assert (rot (stepX K X w a dt) = rot X *m expSO3 (dt *s w)) as -> by apply rot_aff.
  replace (R *m rot X *m expSO3 (dt *s w)) with (R *m (rot X *m expSO3 (dt *s w))) by (destruct R, (rot X), (expSO3 (dt *s w)); ring3).
  apply aff_ext. intros k Hk. unfold stepX. rewrite (col_aff K) by auto.
  set (E := jl (dt *s w)). set (G := g2 (dt *s w)). destruct k as [|[|k]]; rewrite ?(turn_col K) by (auto; lia); [| |reflexivity].
  - transitivity (R *v col X 0 +v dt *s (R *m rot X *m E *v a +v R *v g_)); [rewrite Hg; reflexivity|]. destruct R, (rot X), E, a, (col X 0), g_. ring3.
  - transitivity (R *v col X 1 +v dt *s (R *v col X 0) +v (dt * dt) *s (R *m rot X *m G *v a +v (1 / 2) *s (R *v g_))); [rewrite Hg; reflexivity|]. destruct R, (rot X), G, a, (col X 0), (col X 1), g_. ring3.
Qed.
Definition turn_ip (q : quat) (ip : imu_prop) : imu_prop :=
  mkIP (map (turn_imu q) (ip_queue ip)) (ip_err ip) (ip_static ip) (ip_init_size ip) (ip_use_ori ip) (ip_Rib ip) (ip_gyro_cov ip) (ip_accel_cov ip)
    (ip_gyro_bias_cov ip) (ip_accel_bias_cov ip) (ip_bg0 ip) (ip_ba0 ip) (ip_enable ip) (ip_t ip)
    (ip_bias_init ip) (ip_vec ip) (option_map (turn_imu q) (ip_prev ip)).
Lemma Propagate_turn q K ip s t0 : wfp K s -> stprop s = Some t0 -> ip_err ip = LeftInvariant ->
  Propagate (turn_ip q ip) (turnL R s) = rmap (fun '(b, ip', s') => (b, turn_ip q ip', turnL R s')) (Propagate ip s).
Proof.
  intros W Ht E. unfold Propagate. cbn [ip_queue turn_ip]. destruct (ip_queue ip) as [|x l]; [reflexivity|]. cbn [map ip_prev turn_ip].
  destruct (ip_prev ip) as [m|]; [|reflexivity]. cbn [of_opt option_map bind].
  set (ip1 := set_prev (set_queue ip l) x). change (set_prev (set_queue (turn_ip q ip) (map (turn_imu q) l)) (turn_imu q x)) with (turn_ip q ip1).
  pose proof (step_eq K ip1 m s t0 W Ht) as E1. pose proof (step_eq K (turn_ip q ip1) (turn_imu q m) (turnL R s) t0 (turnL_wfp K R s HR W) Ht) as E2. cbv zeta in E1, E2.
  rewrite E1, E2. cbn [bind rmap]. do 2 f_equal. unfold turnL, turned, turn_cov. cbn [sX sP set_P set_X stype sTheta scmap st stprop sQc sbav sen sslip].
  change (rate (turn_ip q ip1) (turn_imu q m) (gbias (turnL R s))) with (rate ip1 m (gbias s)).
  change (accel (turn_ip q ip1) (turn_imu q m) (gbias (turnL R s)) (abias (turnL R s))) with (accel ip1 m (gbias s) (abias s)).
  change (i_t (turn_imu q m)) with (i_t m).
  rewrite stepX_turn by (apply W). unfold set_P, set_X. cbn [sX sP stype sTheta scmap st stprop sQc sbav sen sslip]. f_equal.
  unfold next_cov, prior_cov. cbn [ip_enable turn_ip ip_err]. change (ip_err ip1) with (ip_err ip). rewrite E. reflexivity.
Qed.
End Turn.
