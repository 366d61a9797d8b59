(** Proofs: the leg kinematics correction commutes with a mirror. *)
From Coq Require Import Reals ZArith List Bool Lia Lra.
From Verif Require Import Res Vec3 Mat LieGroup MatInv Psd Spec SpecState LieSO3 LieSEK LieThms RobotState StateProofs StateHist StateMisc Inekf SpecFilter
  InekfProofs InekfThms Imu Propagation SpecProp Blk PsdBlk PropagationProofs PropagationThms PropagationLog Queue VelCorr LegCorr SpecCorr ImuNeg VelThms LegThms LegAdd LegLoop LegUpd LegHist ConvLeg ConvFilter
  CorrInno Estimator SpecEst SpecConv EstInv YawFilter YawSteps TimeShift SpecMirror Mirror MirrorStep.
Import ListNotations.
Local Open Scope R_scope.

Section M.
Variable p : plane.
Definition mlc (c : leg_corr) : leg_corr := mkLC (map (mir_leg p) (lc_queue c)) (lc_err c) (lc_enc_std c) (lc_kin_std c) (mflip p (lc_contact_cov c)) (lc_thr c) (lc_map c).
Definition mir_foot (f : foot) : foot := mkFoot (ft_k f) (pol p (ft_pos f)) (mflip p (ft_cov f)).
Definition mir_new (n : nat * V3 * M3) : nat * V3 * M3 := (fst (fst n), pol p (snd (fst n)), mflip p (snd n)).
Lemma kin_cov_mir c o : kin_cov (mlc c) (mir_obs p o) = mflip p (kin_cov c o).
Proof.
  unfold kin_cov. cbn [lc_enc_std lc_kin_std mlc lo_J mir_obs]. rewrite <- mflip_add, <- !mflip_scl, mflip_id. f_equal. f_equal.
  destruct p, (lo_J o); unfold mrow, mflip, sgn; ring3.
Qed.
Lemma feet_mir c h : forall legs id, feet (mlc c) h id (map (mir_obs p) legs) = map mir_foot (feet c h id legs).
Proof.
  induction legs as [|o legs IH]; intros id; [reflexivity|]. cbn [map feet]. rewrite IH, map_app. f_equal. cbn [lo_contact mir_obs lo_pos]. destruct (lo_contact o); [|reflexivity].
  change (contact_of (mlc c) h id) with (contact_of c h id). destruct (contact_of c h id); [|reflexivity]. cbn [map]. f_equal. unfold mir_foot. cbn [ft_k ft_pos ft_cov]. f_equal. apply kin_cov_mir.
Qed.
Lemma removed_mir c : forall legs id, removed (mlc c) id (map (mir_obs p) legs) = removed c id legs.
Proof. induction legs as [|o legs IH]; intros id; [reflexivity|]. cbn [map removed]. rewrite IH. reflexivity. Qed.
Lemma added_mir c : forall legs id, added (mlc c) id (map (mir_obs p) legs) = map mir_new (added c id legs).
Proof.
  induction legs as [|o legs IH]; intros id; [reflexivity|]. cbn [map added]. rewrite IH, map_app. f_equal. cbn [lo_contact mir_obs lo_pos lc_map mlc]. destruct (lo_contact o), (lc_map c id); try reflexivity.
  cbn [map mir_new fst snd]. unfold mir_new. cbn [fst snd]. do 3 f_equal. apply kin_cov_mir.
Qed.
Lemma nid_mir l : map nid (map mir_new l) = map nid l.
Proof. rewrite map_map. reflexivity. Qed.

Notation r3p := (r3 p).
Definition rl (i : nat) : R := sgn p (i mod 3).
Lemma rl_sign : is_sign rl. Proof. intros i. apply sgn2. Qed.
Lemma rl_lin b a : (a < 3)%nat -> rl (3 * b + a) = sgn p a. Proof. intros. unfold rl. rewrite mod_lin by auto. reflexivity. Qed.
Lemma nth_foot o b : (b < length o)%nat -> nth b (map mir_foot o) no_foot = mir_foot (nth b o no_foot).
Proof. intros H. rewrite (nth_indep _ no_foot (mir_foot no_foot)) by (rewrite map_length; auto). apply map_nth. Qed.
Lemma leg_Z_mir K X o : SEK K X -> (2 <= K)%nat -> (forall f, In f o -> (2 + ft_k f < K)%nat) -> leg_Z (mirX p X) (map mir_foot o) = signs rl one (leg_Z X o).
Proof.
  intros HX HK Ho. apply mat_ext; [unfold leg_Z; rewrite map_length; reflexivity|reflexivity|]. intros i j Hi Hj. unfold leg_Z in Hi, Hj. rewrite map_length in Hi. change (i < 3 * length o)%nat in Hi. change (j < 1)%nat in Hj. assert (j = 0)%nat as -> by lia.
  rewrite ent_signs by auto. unfold leg_Z. rewrite map_length. rewrite !ent_mk by lia. destruct (lin_ex i) as (b & a & -> & Ha). rewrite !div_lin, !mod_lin by lia. rewrite rl_lin by auto.
  assert (In (nth b o no_foot) o) as Hin by (apply nth_In; lia). specialize (Ho _ Hin). rewrite nth_foot by lia. set (f := nth b o no_foot) in *.
  unfold foot_innovation. rewrite (mirX_rot p K), !(mirX_col p K) by (auto; lia). cbn [ft_pos ft_k mir_foot]. rewrite mflip_mv, !pol_sub. rewrite vget_pol by auto. unfold one. ring.
Qed.
Lemma leg_N_mir K X o : SEK K X -> leg_N (mirX p X) (map mir_foot o) = signs rl rl (leg_N X o).
Proof.
  intros HX. apply mat_ext; [unfold leg_N; rewrite map_length; reflexivity|unfold leg_N; rewrite map_length; reflexivity|]. intros i j Hi Hj. unfold leg_N in Hi, Hj. rewrite map_length in Hi, Hj. change (i < 3 * length o)%nat in Hi. change (j < 3 * length o)%nat in Hj.
  rewrite ent_signs by auto. unfold leg_N. rewrite map_length. rewrite !ent_mk by lia. destruct (lin_ex i) as (b & a & -> & Ha). destruct (lin_ex j) as (b' & a' & -> & Ha'). rewrite !div_lin, !mod_lin by lia. rewrite !rl_lin by auto.
  destruct (Nat.eqb b b'); [|ring]. rewrite nth_foot by lia. rewrite (mirX_rot p K) by auto. cbn [ft_cov mir_foot]. rewrite mflip_T, !mflip_mul, mget_mflip by auto. reflexivity.
Qed.
Lemma leg_H_mir K o : (2 <= K)%nat -> (forall f, In f o -> (2 + ft_k f < K)%nat) -> leg_H K (map mir_foot o) = leg_H K o /\ signs rl (Dg p K) (leg_H K o) = leg_H K o.
Proof.
  intros HK Ho. split.
  - apply mat_ext; [unfold leg_H; rewrite map_length; reflexivity|reflexivity|]. intros i j Hi Hj. unfold leg_H in Hi, Hj. rewrite map_length in Hi. change (i < 3 * length o)%nat in Hi. change (j < 9 + 3 * K)%nat in Hj.
    unfold leg_H. rewrite map_length. rewrite !ent_mk by lia. rewrite nth_foot by (apply Nat.div_lt_upper_bound; lia). reflexivity.
  - apply mat_ext; try reflexivity. intros i j Hi Hj. change (i < 3 * length o)%nat in Hi. change (j < 9 + 3 * K)%nat in Hj. rewrite ent_signs by auto. unfold leg_H. rewrite ent_mk by auto.
    destruct (lin_ex i) as (b & a & -> & Ha). rewrite !div_lin, !mod_lin by lia. rewrite rl_lin by auto. assert (In (nth b o no_foot) o) as Hin by (apply nth_In; lia). specialize (Ho _ Hin). set (k := ft_k (nth b o no_foot)) in *.
    assert (forall q, (q <= K)%nat -> q <> 0%nat -> sgn p a * Dg p K (3 * q + a) = 1) as HD.
    { intros q Hq H0. rewrite Dg_blk by auto. rewrite eps_mid by lia. transitivity (sgn p a * sgn p a); [ring|apply sgn2]. }
    destruct (Nat.eqb_spec j (9 + 3 * k + a)) as [->|]; [replace (9 + 3 * k + a)%nat with (3 * (3 + k) + a)%nat by lia; rewrite HD by lia; ring|].
    destruct (Nat.eqb_spec j (6 + a)) as [->|]; [|ring]. replace (6 + a)%nat with (3 * 2 + a)%nat by lia. rewrite HD by lia. ring.
Qed.
Lemma tracks_mir c h s ids : tracks c h s ids -> tracks (mlc c) h (mirrored p s) ids.
Proof. intros [A1 A2 A3 A4 A5 A6 A7]. split; auto. apply mir_wfp. exact A1. Qed.

(** ** a leg lifts off *)
Lemma sP_of K s : wfp K s -> sP (mirrored p s) = signs (Dg p K) (Dg p K) (sP s) /\ sQc (mirrored p s) = signs (Dg p K) (Dg p K) (sQc s).
Proof. intros [[_ _ _ H1 H2] _ _ H3 H4]. cbn [sP sQc mirrored]. rewrite H1, H3. split; reflexivity. Qed.
Lemma Dg_skip K k i : (k < K - 2)%nat -> (i < 6 + 3 * K)%nat -> Dg p (K - 1) i = Dg p K (skip (3 * (3 + k)) 3 i).
Proof.
  intros Hk Hi. destruct (lin_ex i) as (b & a & -> & Ha). unfold skip. destruct (Nat.ltb_spec (3 * b + a) (3 * (3 + k))).
  - rewrite !Dg_blk by auto. unfold eps. destruct (Nat.eqb_spec b 0), (Nat.eqb_spec b (K - 1 + 1)), (Nat.eqb_spec b (K + 1)); try lia; reflexivity.
  - replace (3 * b + a + 3)%nat with (3 * (b + 1) + a)%nat by lia. rewrite !Dg_blk by auto. unfold eps. destruct (Nat.eqb_spec b 0), (Nat.eqb_spec (b + 1) 0), (Nat.eqb_spec b (K - 1 + 1)), (Nat.eqb_spec (b + 1) (K + 1)); try lia; reflexivity.
Qed.
Lemma signs_drop s t s' t' A i w : (forall k, (k < nr A - w)%nat -> s' k = s (skip i w k)) -> (forall k, (k < nc A - w)%nat -> t' k = t (skip i w k)) -> (i + w <= nr A)%nat -> (i + w <= nc A)%nat ->
  signs s' t' (drop_rc i w A) = drop_rc i w (signs s t A).
Proof.
  intros H1 H2 D1 D2. apply mat_ext; try reflexivity. intros r c Hr Hc. change (r < nr A - w)%nat in Hr. change (c < nc A - w)%nat in Hc.
  rewrite ent_signs by auto. unfold drop_rc. rewrite !nr_signs, !nc_signs. rewrite !ent_mk by auto. rewrite ent_signs by (unfold skip; destruct (Nat.ltb_spec r i), (Nat.ltb_spec c i); lia). rewrite H1, H2 by auto. reflexivity.
Qed.
Lemma del_mir K s k m : wfp K s -> (k < K - 2)%nat -> mirrored p (set_cmap (del_spec s k) m) = set_cmap (del_spec (mirrored p s) k) m.
Proof.
  intros W Hk. pose proof W as [[HX HT1 HT2 HP1 HP2] HK Hty HQ1 HQ2]. pose proof HX as [X1 X2 _ _]. destruct (sP_of K s W) as [EP EQ].
  unfold mirrored at 1. cbn [stype sX sTheta sP scmap st stprop sQc sbav sen sslip set_cmap del_spec]. unfold del_spec at 1. rewrite EP, EQ. cbn [stype sX sTheta scmap st stprop sbav sen sslip mirrored].
  rewrite !nr_drop, HP1, HQ1. replace (9 + 3 * K - 3)%nat with (9 + 3 * (K - 1))%nat by lia. change (sP_sign p (9 + 3 * (K - 1))) with (Dg p (K - 1)).
  rewrite (signs_drop (sX_sign p) (sX_sign p)), !(signs_drop (Dg p K) (Dg p K)); try lia; try reflexivity.
  1-4: intros q Hq; apply Dg_skip; lia.
  all: intros q Hq; unfold sX_sign, skip; destruct (Nat.ltb_spec q 3), (Nat.ltb_spec q (5 + k)); try lia; [destruct (Nat.ltb_spec q 3); [reflexivity|lia] | destruct (Nat.ltb_spec q 3); [lia|reflexivity] | destruct (Nat.ltb_spec (q + 1) 3); [lia|reflexivity]].
Qed.
Lemma del_heap h s s2 i h1 s1 h2 s2' : scmap s2 = scmap s -> nc (sX s2) = nc (sX s) -> del_aug_state h s i = Ok (h1, s1) -> del_aug_state h s2 i = Ok (h2, s2') -> h2 = h1.
Proof.
  intros E1 E2 H1 H2. unfold del_aug_state, dimX in *. rewrite E1, E2 in H2.
  apply bind_inv in H1. destruct H1 as ([h0 m0] & E0 & H1). rewrite E0 in H2. cbn [bind] in H2.
  repeat (apply bind_inv in H1; destruct H1 as (? & _ & H1)). repeat (apply bind_inv in H2; destruct H2 as (? & _ & H2)). congruence.
Qed.
Lemma remove_mir c h s ids id a : tracks c h s ids -> lc_map c id = Some a ->
  exists h' s', remove_leg (h, s, lc_map c) id = Ok (h', s', mupd (lc_map c) id None) /\
    remove_leg (h, mirrored p s, lc_map c) id = Ok (h', mirrored p s', mupd (lc_map c) id None) /\
    tracks (lc_set_map c (mupd (lc_map c) id None)) h' s' (remove_nth (age a ids) ids) /\
    (contact_noise (2 + length ids) (sQc s) -> contact_noise (2 + length (remove_nth (age a ids) ids)) (sQc s')).
Proof.
  intros T E. destruct (tracks_contact c h s ids id a T E) as (E1 & E2 & E3).
  destruct (remove_leg_ok c h s ids id a T E) as (h1 & s1 & R1 & T1 & _ & P1 & X1 & Q1).
  exists h1, s1. split; [exact R1|]. split; [|split; [exact T1|]].
  - destruct (del_aug_state_ok h s ids (age a ids) (tracks_st _ _ _ _ T) E2) as (h2 & s2 & D1 & _ & _ & _ & D5).
    destruct (del_aug_state_ok h (mirrored p s) ids (age a ids) (tracks_st _ _ _ _ (tracks_mir _ _ _ _ T)) E2) as (h3 & s3 & F1 & _ & _ & _ & F5).
    assert (h3 = h2) as -> by (eapply del_heap; [| |exact D1|exact F1]; reflexivity).
    unfold remove_leg in R1 |- *. rewrite E in *. cbn [heap_get] in *. rewrite E3 in *. cbn [of_opt bind] in *. rewrite idx_ok in * by lia. cbn [bind] in *. rewrite Nat2Z.id in *.
    rewrite D1 in R1. rewrite F1. cbn [bind] in *. assert (h2 = h1 /\ s2 = s1) as [-> <-] by (injection R1; auto). rewrite F5, D5. rewrite (del_mir (2 + length ids)) by (try apply T; lia). reflexivity.
  - intros HQ. rewrite Q1. pose proof (remove_nth_length ids (age a ids) E2) as HL. rewrite HL. pose proof (wp_Qr _ _ (tr_wf _ _ _ _ T)) as HQ1. apply contact_noise_drop; [|lia|lia].
    replace (S (2 + (length ids - 1))) with (2 + length ids)%nat by lia. exact HQ.
Qed.
Lemma removes_mir c : forall rem h s ids, tracks c h s ids -> NoDup rem -> (forall id, In id rem -> lc_map c id <> None) ->
  foldM remove_leg (h, mirrored p s, lc_map c) rem = rmap (fun '(h', s', m') => (h', mirrored p s', m')) (foldM remove_leg (h, s, lc_map c) rem).
Proof.
  intros rem. revert c. induction rem as [|id rem IH]; intros c h s ids T ND Hin; cbn [foldM]; [reflexivity|].
  inversion ND; subst. destruct (lc_map c id) as [a|] eqn:Ea; [|exfalso; apply (Hin id); [left; auto|auto]].
  destruct (remove_mir c h s ids id a T Ea) as (h1 & s1 & E1 & E2 & T1 & _). rewrite E1, E2. cbn [bind].
  apply (IH (lc_set_map c (mupd (lc_map c) id None)) h1 s1 _ T1); auto.
  cbn [lc_map lc_set_map]. intros j Hj. unfold mupd. destruct (Nat.eqb_spec j id); [subst; tauto|]. apply Hin. right; auto.
Qed.

(** ** a leg touches down *)
Lemma augF_mir e K pose : (2 <= K)%nat -> signs (Dg p (S K)) (Dg p K) (augF e K pose) = augF e K (pol p pose).
Proof.
  intros HK. apply mat_ext; try reflexivity. intros i j Hi Hj. change (i < 12 + 3 * K)%nat in Hi. change (j < 9 + 3 * K)%nat in Hj. rewrite ent_signs by auto. unfold augF. rewrite !ent_mk by auto.
  destruct (lin_ex i) as (b & a & -> & Ha). destruct (lin_ex j) as (b' & a' & -> & Ha'). rewrite !Dg_blk by auto.
  destruct (Nat.ltb_spec (3 * b + a) (3 + 3 * K)) as [L1|L1].
  { destruct (Nat.eqb_spec (3 * b + a) (3 * b' + a')); [|ring]. assert (b' = b /\ a' = a) as [-> ->] by lia.
    transitivity ((eps (S K) b * eps K b) * (sgn p a * sgn p a)); [ring|]. rewrite sgn2. assert (eps (S K) b = eps K b) as ->; [|rewrite eps2; ring].
    unfold eps. destruct (Nat.eqb_spec b 0), (Nat.eqb_spec b (K + 1)), (Nat.eqb_spec b (S K + 1)); try lia; reflexivity. }
  destruct (Nat.ltb_spec (3 * b + a) (6 + 3 * K)) as [L2|L2].
  { assert (b = K + 1)%nat as -> by lia. replace (3 * (K + 1) + a - (3 + 3 * K))%nat with a by lia. rewrite (eps_mid (S K)) by lia.
    destruct (Nat.ltb_spec (3 * b' + a') 3) as [L3|L3].
    - assert (b' = 0)%nat as -> by lia. cbn [Nat.mul Nat.add]. rewrite eps_0. destruct e; [|ring]. rewrite pol_neg. rewrite skew_pol. rewrite mget_mflip by auto.
      destruct (skew (vneg pose)), a as [|[|[|a]]], a' as [|[|[|a']]]; try lia; cbn; ring.
    - destruct (Nat.eqb_spec (3 * b' + a') (6 + a)); [|ring]. assert (b' = 2 /\ a' = a)%nat as [-> ->] by lia. rewrite eps_mid by lia. transitivity (sgn p a * sgn p a); [ring|apply sgn2]. }
  destruct (Nat.eqb_spec (3 * b + a - 3) (3 * b' + a')); [|ring]. assert (b = b' + 1 /\ a' = a)%nat as [-> ->] by lia.
  assert (eps (S K) (b' + 1) = eps K b') as ->. { unfold eps. destruct (Nat.eqb_spec (b' + 1) 0), (Nat.eqb_spec (b' + 1) (S K + 1)), (Nat.eqb_spec b' 0), (Nat.eqb_spec b' (K + 1)); try lia; reflexivity. }
  transitivity ((eps K b' * eps K b') * (sgn p a * sgn p a)); [ring|]. rewrite sgn2, eps2. ring.
Qed.
Lemma augG_mir e K A : (2 <= K)%nat -> signs (Dg p (S K)) r3p (augG e K A) = augG e K (mflip p A).
Proof.
  intros HK. apply mat_ext; try reflexivity. intros i j Hi Hj. change (i < 12 + 3 * K)%nat in Hi. change (j < 3)%nat in Hj. rewrite ent_signs by auto. unfold augG. rewrite !ent_mk by auto.
  destruct (lin_ex i) as (b & a & -> & Ha). rewrite !Dg_blk by auto. destruct (Nat.leb_spec (3 + 3 * K) (3 * b + a)), (Nat.ltb_spec (3 * b + a) (6 + 3 * K)); cbn [andb]; try ring.
  assert (b = K + 1)%nat as -> by lia. replace (3 * (K + 1) + a - (3 + 3 * K))%nat with a by lia. rewrite eps_mid by lia. unfold r3.
  destruct e; [rewrite <- (mflip_id p) at 2|]; rewrite mget_mflip by auto; ring.
Qed.
Lemma aug_cov_mir e K X pose cov P : (2 <= K)%nat -> SEK K X -> nr P = (9 + 3 * K)%nat -> nc P = (9 + 3 * K)%nat ->
  aug_cov e K (mirX p X) (pol p pose) (mflip p cov) (signs (Dg p K) (Dg p K) P) = signs (Dg p (S K)) (Dg p (S K)) (aug_cov e K X pose cov P).
Proof.
  intros HK HX H1 H2. unfold aug_cov. rewrite (mirX_rot p K) by auto. rewrite <- (augF_mir e K pose HK), <- (augG_mir e K (rot X) HK). rewrite ofM3_mir.
  assert (nr (augF e K pose) = (12 + 3 * K)%nat /\ nc (augF e K pose) = (9 + 3 * K)%nat) as [F1 F2] by (split; reflexivity).
  assert (nr (augG e K (rot X)) = (12 + 3 * K)%nat /\ nc (augG e K (rot X)) = 3%nat) as [G1 G2] by (split; reflexivity).
  rewrite !signs_T. rewrite !signs_mult by (first [apply Dg_sign|apply r3_sign|mdim]; cbn; try congruence). apply signs_plus; mdim.
Qed.
Definition src (K i : nat) : option nat := if (i <? 4 + K)%nat then Some i else if (6 + 3 * K <=? i)%nat then Some (i - 3)%nat else None.
Lemma add_leg_full c h s ids id pose cov : tracks c h s ids -> lc_map c id = None ->
  let K := (2 + length ids)%nat in
  exists Qa, add_leg c (h, s, lc_map c, sP s) (id, pose, cov) = Ok (h ++ [Z.of_nat (3 + K)],
      set_cmap (set_Qc (set_P (set_X s (sek (S K) (rot (sX s)) (fun k => if Nat.eqb k K then col (sX s) 1 +v rot (sX s) *v pose else col (sX s) k))) (aug_cov (lc_err c) K (sX s) pose cov (sP s))) Qa) (cm (ids ++ [length h])),
      mupd (lc_map c) id (Some (length h)), aug_cov (lc_err c) K (sX s) pose cov (sP s)) /\
    nr Qa = (12 + 3 * K)%nat /\ nc Qa = (12 + 3 * K)%nat /\
    forall i j, (i < 12 + 3 * K)%nat -> (j < 12 + 3 * K)%nat ->
      ent Qa i j = if inwin (3 + 3 * K) 3 i && inwin (3 + 3 * K) 3 j then mget (lc_contact_cov c) (i - (3 + 3 * K)) (j - (3 + 3 * K))
                   else match src K i, src K j with Some a, Some b => ent (sQc s) a b | _, _ => 0 end.
Proof.
  intros T Em K. pose proof T as [W Hc Hn Hh Hin Hinj Honto]. pose proof W as [[HX HT1 HT2 HP1 HP2] HK Hty HQ1 HQ2]. pose proof HX as [X1 X2 _ _].
  unfold add_leg, get_position, get_rotation. rewrite cgetV3_ok by lia. cbn [bind]. rewrite cgetM3_ok by lia. cbn [bind]. rewrite Hty.
  fold K in W, HX, HP1, HP2, HK, HQ1, HQ2. rewrite (aug_F_G_ok _ K) by auto. cbn [bind].
  assert (nr (augF (lc_err c) K pose) = (12 + 3 * K)%nat /\ nc (augF (lc_err c) K pose) = (9 + 3 * K)%nat) as [F1 F2] by (split; reflexivity).
  assert (nr (augG (lc_err c) K (rot (sX s))) = (12 + 3 * K)%nat /\ nc (augG (lc_err c) K (rot (sX s))) = 3%nat) as [G1 G2] by (split; reflexivity).
  repeat (first [rewrite cmul_ok by (mdim; congruence) | rewrite cadd_ok by (mdim; congruence)]; cbn [bind]).
  fold (aug_cov (lc_err c) K (sX s) pose cov (sP s)). cbn [heap_new].
  set (u := getV3 (sX s) 0 4 +v getM3 (sX s) 0 0 *v pose).
  destruct (add_aug_state_ok h s ids u (aug_cov (lc_err c) K (sX s) pose cov (sP s)) (lc_contact_cov c) (tracks_st _ _ _ _ T)) as (Qa & s' & E & I & Q1 & Q2 & Q3 & ES).
  { rewrite nr_aug_cov, HT1. lia. } { rewrite nc_aug_cov, HT1. lia. }
  rewrite E. cbn [bind heap_set]. unfold dimX in *. rewrite X2 in *.
  rewrite check_true by (apply Nat.ltb_lt; rewrite app_length; cbn; lia). cbn [bind].
  assert (upd (h ++ [Z.of_nat (3 + K)]) (length h) (Z.of_nat (5 + length ids)) = h ++ [Z.of_nat (3 + K)]) as EU.
  { apply list_ext. intros i. rewrite nth_error_upd. destruct (Nat.eqb_spec (length h) i) as [<-|]; auto.
    rewrite nth_error_app2, Nat.sub_diag by lia. cbn [nth_error]. do 2 f_equal. }
  fold K. fold K in I, E, ES. rewrite EU. exists Qa. split.
  - rewrite ES. change (5 + length ids)%nat with (3 + K)%nat. rewrite addX_sek by exact HX. reflexivity.
  - split; [lia|]. split; [lia|]. intros i j Hi Hj. rewrite Q3 by lia. unfold src. replace (9 + 3 * length ids)%nat with (3 + 3 * K)%nat by lia.
    replace (12 + 3 * length ids)%nat with (6 + 3 * K)%nat by lia. replace (6 + length ids)%nat with (4 + K)%nat by lia. reflexivity.
Qed.
Lemma noise_mir K Q N Qa Qb : (2 <= K)%nat -> contact_noise K Q -> nr Q = (9 + 3 * K)%nat -> nc Q = (9 + 3 * K)%nat ->
  nr Qa = (12 + 3 * K)%nat -> nc Qa = (12 + 3 * K)%nat -> nr Qb = (12 + 3 * K)%nat -> nc Qb = (12 + 3 * K)%nat ->
  (forall i j, (i < 12 + 3 * K)%nat -> (j < 12 + 3 * K)%nat -> ent Qa i j = if inwin (3 + 3 * K) 3 i && inwin (3 + 3 * K) 3 j then mget N (i - (3 + 3 * K)) (j - (3 + 3 * K))
                   else match src K i, src K j with Some a, Some b => ent Q a b | _, _ => 0 end) ->
  (forall i j, (i < 12 + 3 * K)%nat -> (j < 12 + 3 * K)%nat -> ent Qb i j = if inwin (3 + 3 * K) 3 i && inwin (3 + 3 * K) 3 j then mget (mflip p N) (i - (3 + 3 * K)) (j - (3 + 3 * K))
                   else match src K i, src K j with Some a, Some b => ent (signs (Dg p K) (Dg p K) Q) a b | _, _ => 0 end) ->
  Qb = signs (Dg p (S K)) (Dg p (S K)) Qa.
Proof.
  intros HK [_ HZ] D1 D2 A1 A2 B1 B2 HA HB. apply mat_ext; [rewrite nr_signs; lia|rewrite nc_signs; lia|]. intros i j Hi Hj. rewrite B1 in Hi. rewrite B2 in Hj. rewrite ent_signs by lia. rewrite HA, HB by auto.
  destruct (inwin (3 + 3 * K) 3 i && inwin (3 + 3 * K) 3 j) eqn:E.
  - apply andb_true_iff in E. destruct E as [E1 E2]. unfold inwin in *. apply andb_true_iff in E1, E2. destruct E1 as [E1 E3], E2 as [E2 E4]. apply Nat.leb_le in E1, E2. apply Nat.ltb_lt in E3, E4. rewrite mget_mflip by lia.
    replace i with (3 * (K + 1) + (i - (3 + 3 * K)))%nat at 3 by lia. replace j with (3 * (K + 1) + (j - (3 + 3 * K)))%nat at 3 by lia. rewrite !Dg_blk by lia. rewrite eps_mid by lia. ring.
  - destruct (src K i) as [a|] eqn:Ei; [|ring]. destruct (src K j) as [b|] eqn:Ej; [|ring].
    assert (a < 9 + 3 * K /\ b < 9 + 3 * K)%nat as [La Lb].
    { unfold src in *. destruct (Nat.ltb_spec i (4 + K)), (Nat.leb_spec (6 + 3 * K) i), (Nat.ltb_spec j (4 + K)), (Nat.leb_spec (6 + 3 * K) j); split; try discriminate; try injection Ei as <-; try injection Ej as <-; lia. }
    rewrite ent_signs by lia.
    destruct (le_lt_dec 9 a) as [Ga|Ga]; [|rewrite HZ by lia; ring]. destruct (le_lt_dec 9 b) as [Gb|Gb]; [|rewrite HZ by lia; ring].
    destruct (le_lt_dec (3 + 3 * K) a) as [Ha|Ha]; [rewrite HZ by lia; ring|]. destruct (le_lt_dec (3 + 3 * K) b) as [Hb|Hb]; [rewrite HZ by lia; ring|].
    assert (i = a /\ j = b) as [-> ->].
    { unfold src in *. destruct (Nat.ltb_spec i (4 + K)), (Nat.leb_spec (6 + 3 * K) i), (Nat.ltb_spec j (4 + K)), (Nat.leb_spec (6 + 3 * K) j); try discriminate; try injection Ei as <-; try injection Ej as <-; lia. }
    assert (forall q, (9 <= q < 3 + 3 * K)%nat -> Dg p (S K) q = Dg p K q) as HD.
    { intros q Hq. destruct (lin_ex q) as (x & y & -> & Hy). rewrite !Dg_blk by auto. rewrite !eps_mid by lia. reflexivity. }
    rewrite !HD by lia. reflexivity.
Qed.
Lemma add_mir c h s ids id pose cov : tracks c h s ids -> lc_map c id = None -> contact_noise (2 + length ids) (sQc s) -> psd (ofM3 (lc_contact_cov c)) ->
  exists h' s', add_leg c (h, s, lc_map c, sP s) (id, pose, cov) = Ok (h', s', mupd (lc_map c) id (Some (length h)), sP s') /\
    add_leg (mlc c) (h, mirrored p s, lc_map c, sP (mirrored p s)) (id, pol p pose, mflip p cov) = Ok (h', mirrored p s', mupd (lc_map c) id (Some (length h)), sP (mirrored p s')) /\
    tracks (lc_set_map c (mupd (lc_map c) id (Some (length h)))) h' s' (ids ++ [length h]) /\ contact_noise (2 + length (ids ++ [length h])) (sQc s').
Proof.
  intros T E HQ HN. destruct (add_leg_ok c h s ids id pose cov T E) as (h1 & s1 & R1 & T1 & _ & P1 & X1 & Q1).
  exists h1, s1. split; [exact R1|]. split; [|split; [exact T1|]].
  2:{ rewrite app_length. cbn [length]. replace (2 + (length ids + 1))%nat with (S (2 + length ids)) by lia. apply Q1; auto. }
  pose proof (tr_wf _ _ _ _ T) as W. pose proof W as [[HX HT1 HT2 HP1 HP2] HK Hty HQ1 HQ2].
  destruct (add_leg_full c h s ids id pose cov T E) as (Qa & A1 & A2 & A3 & A4).
  destruct (add_leg_full (mlc c) h (mirrored p s) ids id (pol p pose) (mflip p cov) (tracks_mir _ _ _ _ T) E) as (Qb & B1 & B2 & B3 & B4).
  change (lc_map (mlc c)) with (lc_map c) in B1. rewrite B1. clear B1. change (lc_err (mlc c)) with (lc_err c) in *. change (lc_contact_cov (mlc c)) with (mflip p (lc_contact_cov c)) in *.
  set (K := (2 + length ids)%nat) in *. destruct (sP_of K s W) as [EP EQ]. rewrite EP in *. rewrite EQ in B4. change (sX (mirrored p s)) with (mirX p (sX s)) in *.
  rewrite aug_cov_mir by auto.
  assert (Qb = signs (Dg p (S K)) (Dg p (S K)) Qa) as -> by (apply (noise_mir K (sQc s) (lc_contact_cov c)); auto).
  assert (sek (S K) (rot (mirX p (sX s))) (fun k => if Nat.eqb k K then col (mirX p (sX s)) 1 +v rot (mirX p (sX s)) *v pol p pose else col (mirX p (sX s)) k) =
    mirX p (sek (S K) (rot (sX s)) (fun k => if Nat.eqb k K then col (sX s) 1 +v rot (sX s) *v pose else col (sX s) k))) as ->.
  { rewrite mirX_sek. rewrite (mirX_rot p K) by auto. apply aff_ext. intros k Hk. destruct (Nat.eqb_spec k K); rewrite !(mirX_col p K) by (auto; lia); [|reflexivity]. rewrite mflip_mv, pol_add. reflexivity. }
  rewrite R1 in A1. set (X2 := sek (S K) (rot (sX s)) _) in *. set (P2 := aug_cov _ K (sX s) pose cov (sP s)) in *. assert (nr P2 = 9 + 3 * S K)%nat as N2 by (unfold P2; rewrite nr_aug_cov; lia).
  clearbody X2 P2. assert (h1 = h ++ [Z.of_nat (3 + K)]) as -> by (injection A1; auto). assert (s1 = set_cmap (set_Qc (set_P (set_X s X2) P2) Qa) (cm (ids ++ [length h]))) as -> by (injection A1; auto).
  assert (mirrored p (set_cmap (set_Qc (set_P (set_X s X2) P2) Qa) (cm (ids ++ [length h]))) =
    set_cmap (set_Qc (set_P (set_X (mirrored p s) (mirX p X2)) (signs (Dg p (S K)) (Dg p (S K)) P2)) (signs (Dg p (S K)) (Dg p (S K)) Qa)) (cm (ids ++ [length h]))) as ->.
  { unfold mirrored at 1. cbn [sP sQc set_cmap set_Qc set_P]. rewrite N2, A2. replace (12 + 3 * K)%nat with (9 + 3 * S K)%nat by lia. reflexivity. }
  reflexivity.
Qed.
Lemma adds_mir c : forall new h s ids, tracks c h s ids -> NoDup (map nid new) -> (forall id, In id (map nid new) -> lc_map c id = None) -> contact_noise (2 + length ids) (sQc s) -> psd (ofM3 (lc_contact_cov c)) ->
  foldM (add_leg (mlc c)) (h, mirrored p s, lc_map c, sP (mirrored p s)) (map mir_new new) =
  rmap (fun '(h', s', m', P') => (h', mirrored p s', m', sP (mirrored p s'))) (foldM (add_leg c) (h, s, lc_map c, sP s) new).
Proof.
  intros new. revert c. induction new as [|[[id f] N] new IH]; intros c h s ids T ND Hin HQ HN; cbn [foldM map]; [reflexivity|].
  inversion ND; subst. cbn [map nid fst] in *.
  destruct (add_mir c h s ids id f N T (Hin id (or_introl eq_refl)) HQ HN) as (h1 & s1 & E1 & E2 & T1 & Q1). unfold mir_new at 1. cbn [fst snd]. rewrite E1, E2. cbn [bind].
  apply (IH (lc_set_map c (mupd (lc_map c) id (Some (length h)))) h1 s1 _ T1); auto.
  cbn [lc_map lc_set_map]. intros j Hj. unfold mupd. destruct (Nat.eqb_spec j id) as [->|]; [exfalso; auto|]. apply Hin. right; auto.
Qed.
Lemma leg_update_mir c h m s ids : tracks c h s ids -> psd (sP s) -> leg_noise_ok c -> contact_noise (2 + length ids) (sQc s) ->
  leg_update (mlc c) h (mir_leg p m) (mirrored p s) = rmap (fun '(c', h', s') => (mlc c', h', mirrored p s')) (leg_update c h m s).
Proof.
  intros T HP HN HQ. rewrite (leg_update_eq c h m s ids T). rewrite (leg_update_eq _ h _ _ ids (tracks_mir _ _ _ _ T)). cbv zeta. cbn [lm_legs mir_leg lc_err mlc lc_map lm_t]. rewrite feet_mir, removed_mir, added_mir, map_length.
  destruct (leg_corrected_ex c h m s ids T HP HN) as (s1 & HC & HP1). destruct (corrected_tracks c h m s s1 ids T HC) as [T1 M1].
  change (sX (mirrored p s)) with (mirX p (sX s)). change (set_time (mirrored p s) (lm_t m)) with (mirrored p (set_time s (lm_t m))).
  set (o := feet c h 0 (lm_legs m)) in *.
  assert (wf (2 + length ids) (set_time s (lm_t m))) as W' by (destruct (tr_wf _ _ _ _ T) as [[] _ _ _ _]; split; auto).
  assert (forall f, In f o -> (2 + ft_k f < 2 + length ids)%nat) as Ho.
  { intros f Hf. destruct (CorrInno.feet_in _ _ _ _ _ Hf) as (i & oo & _ & _ & Hc & _). pose proof (contact_lt _ _ _ _ _ _ T Hc). lia. }
  pose proof (wf_X _ _ W') as HX. cbn [sX set_time] in HX.
  destruct (leg_H_mir (2 + length ids) o ltac:(lia) Ho) as [LH1 LH2].
  assert ((if Nat.eqb (length o) 0 then Ok (mirrored p (set_time s (lm_t m))) else CorrectRightInvariant (leg_Z (mirX p (sX s)) (map mir_foot o)) (leg_H (2 + length ids) (map mir_foot o)) (leg_N (mirX p (sX s)) (map mir_foot o)) (mirrored p (set_time s (lm_t m))) (lc_err c)) = Ok (mirrored p s1)) as ->.
  { red in HC. fold o in HC. destruct (Nat.eqb (length o) 0); [congruence|].
    rewrite (leg_Z_mir (2 + length ids)), (leg_N_mir (2 + length ids)), LH1 by (auto; lia).
    rewrite (CR_mir p (2 + length ids) (3 * length o)); auto using leg_measurement, rl_sign.
    rewrite HC. reflexivity. }
  assert ((if Nat.eqb (length o) 0 then Ok (set_time s (lm_t m)) else CorrectRightInvariant (leg_Z (sX s) o) (leg_H (2 + length ids) o) (leg_N (sX s) o) (set_time s (lm_t m)) (lc_err c)) = Ok s1) as ->.
  { red in HC. fold o in HC. destruct (Nat.eqb (length o) 0); [congruence|]. exact HC. }
  cbn [bind]. rewrite (removes_mir c _ _ _ _ T1 (removed_nodup _ _ _)).
  2:{ intros id Hid. apply removed_spec in Hid. destruct Hid as (? & _ & _ & _ & H). exact H. }
  destruct (remove_legs_ok c (removed c 0 (lm_legs m)) h s1 ids T1 (removed_nodup _ _ _)) as (h2 & s2 & m2 & ids2 & F1 & F2 & F3 & _ & _ & F6).
  { intros id Hid. apply removed_spec in Hid. destruct Hid as (? & _ & _ & _ & H). exact H. }
  assert (contact_noise (2 + length ids2) (sQc s2)) as Q2.
  { apply F6. destruct M1 as (_ & _ & _ & _ & M1 & _). rewrite M1. exact HQ. }
  rewrite F1. cbn [rmap bind].
  pose proof (adds_mir (lc_set_map c m2) (added c 0 (lm_legs m)) h2 s2 ids2 F3 (added_nodup _ _ _)) as EA.
  cbn [lc_map lc_set_map] in EA. change (add_leg (lc_set_map c m2)) with (add_leg c) in EA. change (add_leg (mlc (lc_set_map c m2))) with (add_leg (mlc c)) in EA.
  rewrite EA; auto.
  - destruct (foldM (add_leg c) (h2, s2, m2, sP s2) _) as [[[[? ?] ?] ?]|]; reflexivity.
  - intros id Hid. apply added_spec in Hid. destruct Hid as (? & _ & _ & _ & H). rewrite F2. unfold mupds. rewrite H. destruct (in_dec _ _ _); reflexivity.
  - apply HN.
Qed.
Lemma leg_Correct_mir c h s ids sched : tracks c h s ids -> psd (sP s) -> leg_noise_ok c -> contact_noise (2 + length ids) (sQc s) ->
  leg_Correct (mlc c) h (mirrored p s) (map (map (mir_leg p)) sched) = rmap (fun '(b, c', h', s') => (b, mlc c', h', mirrored p s')) (leg_Correct c h s sched).
Proof.
  intros T HP HN HQ. unfold leg_Correct. cbn [lc_queue mlc]. rewrite hd_map, tl_map, <- map_app.
  assert (forall q bs, lc_set_queue (mlc c) (map (mir_leg p) q ++ concat (map (map (mir_leg p)) bs)) = mlc (lc_set_queue c (q ++ concat bs))) as EQ.
  { intros q bs. rewrite concat_maps, <- map_app. reflexivity. }
  destruct (lc_queue c ++ hd_batch sched) as [|m q]; cbn [map].
  { specialize (EQ []). cbn [map app] in EQ. rewrite EQ. reflexivity. }
  change (get_propagate_time (mirrored p s)) with (get_propagate_time s). destruct (get_propagate_time s) as [tp|]; [|reflexivity]. cbn [bind]. cbv zeta.
  change (lm_t (mir_leg p m)) with (lm_t m). change (lc_thr (mlc c)) with (lc_thr c).
  assert ((if too_old (lc_thr c) tp (lm_t m) then drain (fun m0 => too_old (lc_thr c) tp (lm_t m0)) (map (mir_leg p) q) (map (map (mir_leg p)) (tl_batch sched)) else (Some (mir_leg p m), map (mir_leg p) q, map (map (mir_leg p)) (tl_batch sched)))
        = let '(r, q', bs) := (if too_old (lc_thr c) tp (lm_t m) then drain (fun m0 => too_old (lc_thr c) tp (lm_t m0)) q (tl_batch sched) else (Some m, q, tl_batch sched)) in (option_map (mir_leg p) r, map (mir_leg p) q', map (map (mir_leg p)) bs)) as ->.
  { destruct (too_old (lc_thr c) tp (lm_t m)); [|reflexivity]. apply drain_map. reflexivity. }
  destruct (if too_old (lc_thr c) tp (lm_t m) then _ else _) as [[r q'] bs]. rewrite EQ. destruct r as [m'|]; cbn [option_map]; [|reflexivity].
  rewrite (leg_update_mir _ h m' s ids (tracks_queue _ _ _ _ _ T) HP HN HQ). destruct (leg_update _ h m' s) as [[[? ?] ?]|]; reflexivity.
Qed.
End M.
