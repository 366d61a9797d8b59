(** Proofs about LeggedKinematicsCorrection: what the bookkeeping loops preserve. *)
From Coq Require Import Reals ZArith List Bool Lia Lra.
From Verif Require Import Res Vec3 Mat LieGroup MatInv Psd Spec SpecState LieSO3 LieSEK LieThms RobotState StateProofs StateHist StateMisc Inekf SpecFilter
  InekfProofs InekfThms Imu Propagation SpecProp Blk PsdBlk PropagationProofs PropagationThms Queue VelCorr LegCorr SpecCorr ImuNeg VelThms LegThms LegAdd.
Import ListNotations.
Local Open Scope R_scope.

Lemma carried_refl L c h s : carried L c h s c h s.
Proof. split; auto. Qed.
Lemma carried_trans (L : nat -> Prop) c h s c1 h1 s1 c2 h2 s2 :
  carried L c h s c1 h1 s1 -> carried L c1 h1 s1 c2 h2 s2 -> carried L c h s c2 h2 s2.
Proof. intros [A1 A2] [B1 B2]. split; intros; [rewrite B1, A1|rewrite B2, A2]; auto. Qed.
Lemma carried_weak (L L' : nat -> Prop) c h s c1 h1 s1 : (forall id, L' id -> L id) -> carried L c h s c1 h1 s1 -> carried L' c h s c1 h1 s1.
Proof. intros H [A1 A2]. split; intros; auto. Qed.

Lemma contact_of_map c h m id : contact_of (lc_set_map c m) h id = match m id with Some a => match nth_error h a with Some z => Some (Z.to_nat z - 5)%nat | None => None end | None => None end.
Proof. reflexivity. Qed.
Lemma contact_ext c m m' h : (forall x, m x = m' x) -> forall id, contact_of (lc_set_map c m) h id = contact_of (lc_set_map c m') h id.
Proof. intros H id. unfold contact_of. cbn [lc_map lc_set_map]. rewrite H. reflexivity. Qed.

(** ** removal *)
Lemma ent_drop P i m r k : nr P = nc P -> (m <= nr P)%nat -> (r < nr P - m)%nat -> (k < nr P - m)%nat ->
  ent (drop_rc i m P) r k = ent P (skip i m r) (skip i m k).
Proof. intros. unfold drop_rc. rewrite ent_mk by lia. reflexivity. Qed.
Lemma remove_carried c h s ids id a h' s' : tracks c h s ids -> lc_map c id = Some a ->
  tracks (lc_set_map c (mupd (lc_map c) id None)) h' s' (remove_nth (age a ids) ids) ->
  sP s' = drop_rc (3 * (3 + age a ids)) 3 (sP s) -> sX s' = drop_rc (5 + age a ids) 1 (sX s) ->
  carried (fun x => x <> id) c h s (lc_set_map c (mupd (lc_map c) id None)) h' s'.
Proof.
  intros T E T' HP HX. destruct (tracks_contact c h s ids id a T E) as (_ & Hlt & _).
  pose proof (tr_wf _ _ _ _ T) as [[HXX _ _ HP1 HP2] _ _ _ _]. destruct HXX as [X1 X2 _ _].
  pose proof (tr_nodup _ _ _ _ T) as ND. pose proof (tr_in _ _ _ _ T _ _ E) as Hin.
  set (c' := lc_set_map c (mupd (lc_map c) id None)) in *.
  assert (forall x, x <> id -> (lc_map c x = None /\ lc_map c' x = None) \/
    exists k k', contact_of c h x = Some k /\ contact_of c' h' x = Some k' /\ (k < length ids)%nat /\ (k' < length ids - 1)%nat /\ k = skip (age a ids) 1 k') as HC.
  { intros x Hx. unfold c'. cbn [lc_map lc_set_map]. unfold mupd. destruct (Nat.eqb_spec x id); [tauto|]. destruct (lc_map c x) as [b|] eqn:Eb; [right|left; auto].
    destruct (tracks_contact c h s ids x b T Eb) as (C1 & C2 & _).
    assert (lc_map c' x = Some b) as Eb' by (unfold c'; cbn [lc_map lc_set_map]; unfold mupd; destruct (Nat.eqb_spec x id); tauto).
    destruct (tracks_contact c' h' s' _ x b T' Eb') as (C3 & C4 & _). rewrite remove_nth_length in C4 by auto.
    exists (age b ids), (age b (remove_nth (age a ids) ids)). split; auto. split; auto. split; auto. split; auto.
    rewrite <- remove_remove_nth by auto. apply age_remove; auto. apply in_in_remove; [|exact (tr_in _ _ _ _ T _ _ Eb)].
    intros ->. apply Hx. exact (tr_inj _ _ _ _ T _ _ _ Eb E). }
  assert (forall x, lc_map c x = None -> contact_of c h x = None) as N1 by (intros x Hx; unfold contact_of; rewrite Hx; reflexivity).
  assert (forall x, lc_map c' x = None -> contact_of c' h' x = None) as N2 by (intros x Hx; unfold contact_of; rewrite Hx; reflexivity).
  split.
  - intros x Hx. unfold ppos. destruct (HC x Hx) as [[H1 H2]|(k & k' & -> & -> & H1 & H2 & H3)]; [rewrite N1, N2 by auto; reflexivity|].
    cbn [option_map]. f_equal. rewrite HX. unfold col. apply V3_ext. intros i Hi. rewrite !vget_getV3 by auto.
    unfold drop_rc. rewrite ent_mk by lia. subst k. unfold skip.
    destruct (Nat.ltb_spec k' (age a ids)), (Nat.ltb_spec (0 + i) (5 + age a ids)), (Nat.ltb_spec (3 + (2 + k')) (5 + age a ids)); try lia; f_equal; lia.
  - intros x y Hx Hy. unfold pcov.
    assert (nr (sP s') = nr (sP s) - 3)%nat as EN by (rewrite HP; apply nr_drop).
    assert (forall x, (forall id0, slot_leg x = Some id0 -> id0 <> id) ->
      (nr (sP s) <= row c h s x /\ nr (sP s') <= row c' h' s' x)%nat \/
      (row c' h' s' x < nr (sP s) - 3 /\ skip (3 * (3 + age a ids)) 3 (row c' h' s' x) = row c h s x)%nat) as HR.
    { intros [n|i b|n] Hs; cbn [row].
      - destruct (Nat.ltb_spec n 9); [right|left; lia]. unfold skip. destruct (Nat.ltb_spec n (3 * (3 + age a ids))); lia.
      - destruct (HC i (Hs i eq_refl)) as [[H1 H2]|(k & k' & -> & -> & H1 & H2 & H3)]; [rewrite N1, N2 by auto; left; lia|].
        destruct (Nat.ltb_spec b 3); [right|left; lia]. subst k. unfold skip in *.
        destruct (Nat.ltb_spec k' (age a ids)), (Nat.ltb_spec (9 + 3 * k' + b) (3 * (3 + age a ids))); lia.
      - destruct (le_lt_dec 6 n); [left; lia|right]. rewrite EN. unfold skip. destruct (Nat.ltb_spec (nr (sP s) - 3 - 6 + n) (3 * (3 + age a ids))); lia. }
    destruct (HR x Hx) as [[A1 A2]|[A1 A2]]; [rewrite !(ent_zero _ (row _ _ _ x)) by lia; reflexivity|].
    destruct (HR y Hy) as [[B1 B2]|[B1 B2]].
    + assert (nc (sP s') = nc (sP s) - 3)%nat as EC by (rewrite HP; apply nc_drop). rewrite !(ent_zero _ _ (row _ _ _ y)) by lia; reflexivity.
    + rewrite HP, ent_drop by (rewrite ?HP1, ?HP2; lia). rewrite A2, B2. reflexivity.
Qed.
Lemma carried_ext L c m m' h s h' s' : forall c0, (forall x, m x = m' x) -> carried L c0 h s (lc_set_map c m) h' s' -> carried L c0 h s (lc_set_map c m') h' s'.
Proof.
  intros c0 H [A1 A2]. split.
  - intros id Hid. rewrite <- A1 by auto. unfold ppos. rewrite (contact_ext c m m') by auto. reflexivity.
  - intros x y Hx Hy. rewrite <- A2 by auto. unfold pcov. f_equal; unfold row; destruct x, y; rewrite ?(contact_ext c m m') by auto; reflexivity.
Qed.
Lemma remove_legs_carried c : forall rem h s ids, tracks c h s ids -> NoDup rem -> (forall id, In id rem -> lc_map c id <> None) ->
  exists h' s' m' ids', foldM remove_leg (h, s, lc_map c) rem = Ok (h', s', m') /\ (forall x, m' x = mupds (lc_map c) rem x) /\
    tracks (lc_set_map c m') h' s' ids' /\ kept s s' /\ (psd (sP s) -> psd (sP s')) /\
    (contact_noise (2 + length ids) (sQc s) -> contact_noise (2 + length ids') (sQc s')) /\
    carried (fun x => ~ In x rem) c h s (lc_set_map c m') h' s'.
Proof.
  intros rem. revert c. induction rem as [|id rem IH]; intros c h s ids T ND Hin; cbn [foldM].
  - exists h, s, (lc_map c), ids. split; [reflexivity|]. split; [reflexivity|]. split; [destruct T; split; auto|]. split; [apply kept_refl|]. split; [auto|]. split; [auto|].
    destruct c. apply carried_refl.
  - inversion ND; subst. destruct (lc_map c id) as [a|] eqn:Ea; [|exfalso; apply (Hin id); [left; auto|auto]].
    destruct (remove_leg_ok c h s ids id a T Ea) as (h1 & s1 & E1 & T1 & K1 & P1 & X1 & Q1). rewrite E1. cbn [bind].
    destruct (tracks_contact c h s ids id a T Ea) as (_ & E2 & _).
    pose proof (remove_carried _ _ _ _ _ _ _ _ T Ea T1 P1 X1) as C1.
    specialize (IH (lc_set_map c (mupd (lc_map c) id None)) h1 s1 _ T1).
    destruct IH as (h2 & s2 & m2 & ids2 & F1 & F2 & F3 & F4 & F5 & F6 & F7); auto.
    { cbn [lc_map lc_set_map]. intros j Hj. unfold mupd. destruct (Nat.eqb_spec j id); [subst; tauto|]. apply Hin. right; auto. }
    cbn [lc_map lc_set_map] in *. exists h2, s2, m2, ids2. split; [exact F1|]. split; [|split; [exact F3|split; [eapply kept_trans; eauto|split; [|split]]]].
    + intros x. rewrite F2. unfold mupds, mupd. destruct (in_dec Nat.eq_dec x rem), (in_dec Nat.eq_dec x (id :: rem)); auto.
      * exfalso. apply n. right; auto.
      * destruct (Nat.eqb_spec x id); auto. destruct i as [->|]; [tauto|tauto].
      * destruct (Nat.eqb_spec x id); auto. exfalso. apply n0. left; auto.
    + intros HP. apply F5. rewrite P1. apply psd_drop; auto.
    + intros HQ. apply F6. rewrite Q1, remove_nth_length by auto. replace (3 * (3 + age a ids))%nat with (3 * (1 + (2 + age a ids)))%nat by lia.
      pose proof (tr_wf _ _ _ _ T) as [_ _ _ HQ1 _].
      apply contact_noise_drop; [|lia|lia]. replace (S (2 + (length ids - 1))) with (2 + length ids)%nat by lia. auto.
    + eapply carried_trans; [eapply carried_weak; [|exact C1]|eapply carried_weak; [|exact F7]].
      * cbn. intros x Hx E0. apply Hx. left; auto.
      * cbn. intros x Hx E0. apply Hx. right; auto.
Qed.

(** ** addition *)
Definition src (K i : nat) : nat := if (i <? 3 + 3 * K)%nat then i else (i - 3)%nat.
Definition phi (e : error_type) (K : nat) (f : V3) (i : nat) (g : nat -> R) : R :=
  if (i <? 3 + 3 * K)%nat then g i
  else if (i <? 6 + 3 * K)%nat then
    g (6 + (i - (3 + 3 * K)))%nat +
    match e with
    | RightInvariant => 0
    | LeftInvariant => let a := (i - (3 + 3 * K))%nat in mget (skew (vneg f)) a 0 * g 0%nat + mget (skew (vneg f)) a 1 * g 1%nat + mget (skew (vneg f)) a 2 * g 2%nat
    end
  else g (i - 3)%nat.
Lemma sum_one n k g : (k < n)%nat -> sum n (fun j => (if Nat.eqb k j then 1 else 0) * g j) = g k.
Proof.
  revert k. induction n as [|n IH]; intros k Hk; [lia|]. cbn [sum]. destruct (Nat.eqb_spec k n) as [->|].
  - rewrite sum_zero; [ring|]. intros j Hj. caseb. ring.
  - rewrite IH by lia. ring.
Qed.
Lemma row_F e K f i g : (i < 12 + 3 * K)%nat -> (2 <= K)%nat -> sum (9 + 3 * K) (fun k => ent (augF e K f) i k * g k) = phi e K f i g.
Proof.
  intros Hi HK. unfold phi, augF.
  transitivity (sum (9 + 3 * K) (fun j => (if (i <? 3 + 3 * K)%nat then (if Nat.eqb i j then 1 else 0)
    else if (i <? 6 + 3 * K)%nat then
      (if (j <? 3)%nat then match e with LeftInvariant => mget (skew (vneg f)) (i - (3 + 3 * K)) j | RightInvariant => 0 end
       else if Nat.eqb j (6 + (i - (3 + 3 * K))) then 1 else 0)
    else if Nat.eqb (i - 3) j then 1 else 0) * g j)).
  { apply sum_ext. intros k Hk. rewrite ent_mk by lia. reflexivity. }
  destruct (Nat.ltb_spec i (3 + 3 * K)); [|destruct (Nat.ltb_spec i (6 + 3 * K))].
  - apply sum_one. lia.
  - set (a := (i - (3 + 3 * K))%nat). assert (a < 3)%nat by (unfold a; lia).
    transitivity (sum (9 + 3 * K) (fun j => (if Nat.eqb (6 + a) j then 1 else 0) * g j) +
      sum (9 + 3 * K) (fun j => (if (j <? 3)%nat then match e with LeftInvariant => mget (skew (vneg f)) a j | RightInvariant => 0 end else 0) * g j)).
    + rewrite <- sum_plus. apply sum_ext. intros j Hj. destruct (Nat.ltb_spec j 3).
      * caseb. ring.
      * rewrite (Nat.eqb_sym j). ring.
    + rewrite sum_one by lia. f_equal. replace (9 + 3 * K)%nat with (3 + (6 + 3 * K))%nat by lia. rewrite sum_app. cbn [sum Nat.ltb Nat.leb].
      rewrite sum_zero by (intros; caseb; ring). destruct e; ring.
  - apply sum_one. lia.
Qed.
Lemma ent_aug e K X f N P i j : SO3 (rot X) -> nr P = (9 + 3 * K)%nat -> nc P = (9 + 3 * K)%nat -> (2 <= K)%nat -> (i < 12 + 3 * K)%nat -> (j < 12 + 3 * K)%nat ->
  ent (aug_cov e K X f N P) i j = phi e K f i (fun k => phi e K f j (fun l => ent P k l)) +
    if inwin (3 + 3 * K) 3 i && inwin (3 + 3 * K) 3 j then mget (foot_noise e X N) (i - (3 + 3 * K)) (j - (3 + 3 * K)) else 0.
Proof.
  intros HR H1 H2 HK Hi Hj. unfold aug_cov. rewrite ent_plus by reflexivity. f_equal.
  - rewrite ent_mult. mdim. rewrite H2.
    rewrite <- (row_F e K f i) by auto.
    transitivity (sum (9 + 3 * K) (fun l => sum (9 + 3 * K) (fun k => ent (augF e K f) i k * ent P k l) * ent (augF e K f) j l)).
    { apply sum_ext. intros l Hl. rewrite ent_T. f_equal. rewrite ent_mult. reflexivity. }
    transitivity (sum (9 + 3 * K) (fun l => sum (9 + 3 * K) (fun k => ent (augF e K f) i k * (ent (augF e K f) j l * ent P k l)))).
    { apply sum_ext. intros l Hl. rewrite <- sum_scal_r. apply sum_ext. intros k Hk. ring. }
    rewrite sum_swap. apply sum_ext. intros k Hk. rewrite sum_scal_l. f_equal. apply row_F; auto.
  - rewrite ent_mult. mdim. cbn [sum].
    rewrite !ent_mult. change (nc (augG e K (rot X))) with 3%nat. cbn [sum]. rewrite !ent_T. unfold augG. rewrite !ent_mk by lia. rewrite !ent_ofM3 by lia.
    unfold inwin.
    replace (i <? 6 + 3 * K)%nat with (i <? 3 + 3 * K + 3)%nat by (f_equal; lia). replace (j <? 6 + 3 * K)%nat with (j <? 3 + 3 * K + 3)%nat by (f_equal; lia).
    destruct (Nat.leb_spec (3 + 3 * K) i), (Nat.ltb_spec i (3 + 3 * K + 3)), (Nat.leb_spec (3 + 3 * K) j), (Nat.ltb_spec j (3 + 3 * K + 3)); cbn [andb]; try ring.
    assert (i - (3 + 3 * K) < 3)%nat as Ha by lia. assert (j - (3 + 3 * K) < 3)%nat as Hb by lia.
    revert Ha Hb. generalize (i - (3 + 3 * K))%nat, (j - (3 + 3 * K))%nat. intros a b Ha Hb. unfold foot_noise. generalize (rot X). intros A.
    destruct e, a as [|[|[|]]], b as [|[|[|]]]; try lia; cbn; ring.
Qed.

Lemma add_facts c h s ids id h' s' f N : tracks c h s ids -> lc_map c id = None ->
  let K := (2 + length ids)%nat in
  let c' := lc_set_map c (mupd (lc_map c) id (Some (length h))) in
  tracks c' h' s' (ids ++ [length h]) ->
  sP s' = aug_cov (lc_err c) K (sX s) f N (sP s) ->
  sX s' = sek (S K) (rot (sX s)) (fun k => if Nat.eqb k K then col (sX s) 1 +v rot (sX s) *v f else col (sX s) k) ->
  carried (fun x => x <> id) c h s c' h' s' /\ touchdown (lc_err c) c' h' s' id f N.
Proof.
  intros T Em K c' T' HP HX.
  pose proof (tr_wf _ _ _ _ T) as [[HXX _ _ HP1 HP2] HK _ _ _]. fold K in HXX, HP1, HP2, HK. pose proof HXX as [X1 X2 X3 _].
  assert (~ In (length h) ids) as Hnew.
  { intros Hi. destruct (In_nth_error _ _ Hi) as [k Ek]. pose proof (tr_heap _ _ _ _ T _ _ Ek). assert (length h < length h)%nat; [|lia]. apply nth_error_Some. congruence. }
  assert (contact_of c' h' id = Some (length ids)) as Cid.
  { assert (lc_map c' id = Some (length h)) as E1 by (unfold c'; cbn [lc_map lc_set_map]; unfold mupd; rewrite Nat.eqb_refl; reflexivity).
    destruct (tracks_contact _ _ _ _ _ _ T' E1) as (E2 & _). rewrite E2, age_new by auto. reflexivity. }
  assert (forall x, x <> id -> contact_of c' h' x = contact_of c h x /\ forall k, contact_of c h x = Some k -> (k < length ids)%nat) as HC.
  { intros x Hx. assert (lc_map c' x = lc_map c x) as E1 by (unfold c'; cbn [lc_map lc_set_map]; unfold mupd; destruct (Nat.eqb_spec x id); tauto).
    destruct (lc_map c x) as [b|] eqn:Eb.
    - destruct (tracks_contact _ _ _ _ _ _ T Eb) as (E2 & E3 & _). destruct (tracks_contact _ _ _ _ _ _ T' E1) as (E4 & _).
      rewrite E2, E4. split; [f_equal; apply age_app, (tr_in _ _ _ _ T _ _ Eb)|]. intros k [= <-]; auto.
    - unfold contact_of. rewrite Eb, E1. split; [reflexivity|discriminate]. }
  assert (nr (sP s') = 12 + 3 * K)%nat as NP by (rewrite HP; apply nr_aug_cov).
  assert (nc (sP s') = 12 + 3 * K)%nat as NC by (rewrite HP; apply nc_aug_cov).
  assert (forall x, slot_leg x <> Some id ->
    (9 + 3 * K <= row c h s x /\ 12 + 3 * K <= row c' h' s' x)%nat \/
    (row c h s x < 9 + 3 * K /\ row c' h' s' x < 12 + 3 * K /\ inwin (3 + 3 * K) 3 (row c' h' s' x) = false /\
     (forall g, phi (lc_err c) K f (row c' h' s' x) g = g (row c h s x)))%nat) as HR.
  { intros [n|i b|n] Hs; cbn [row].
    - destruct (Nat.ltb_spec n 9); [right|left; lia]. split; [lia|]. split; [lia|]. split.
      + unfold inwin. destruct (Nat.leb_spec (3 + 3 * K) n); [lia|reflexivity].
      + intros g. unfold phi. destruct (Nat.ltb_spec n (3 + 3 * K)); [reflexivity|lia].
    - assert (i <> id) as Hi by (intros ->; apply Hs; reflexivity). destruct (HC i Hi) as [E1 E2]. rewrite E1. destruct (contact_of c h i) as [k|]; [|left; lia].
      specialize (E2 k eq_refl). destruct (Nat.ltb_spec b 3); [right|left; lia]. split; [lia|]. split; [lia|]. split.
      + unfold inwin. destruct (Nat.leb_spec (3 + 3 * K) (9 + 3 * k + b)); [lia|reflexivity].
      + intros g. unfold phi. destruct (Nat.ltb_spec (9 + 3 * k + b) (3 + 3 * K)); [reflexivity|lia].
    - rewrite NP, HP1. destruct (le_lt_dec 6 n); [left; lia|right]. split; [lia|]. split; [lia|]. split.
      + unfold inwin. destruct (Nat.ltb_spec (12 + 3 * K - 6 + n) (3 + 3 * K + 3)); [lia|apply andb_false_r].
      + intros g. unfold phi. destruct (Nat.ltb_spec (12 + 3 * K - 6 + n) (3 + 3 * K)); [lia|].
        destruct (Nat.ltb_spec (12 + 3 * K - 6 + n) (6 + 3 * K)); [lia|]. f_equal; lia. }
  assert (forall x y, slot_leg x <> Some id -> slot_leg y <> Some id -> pcov c' h' s' x y = pcov c h s x y) as HPC.
  { intros x y Hx Hy. unfold pcov.
    destruct (HR x Hx) as [[A1 A2]|(A1 & A2 & A3 & A4)]; [rewrite !(ent_zero _ (row _ _ _ x)) by lia; reflexivity|].
    destruct (HR y Hy) as [[B1 B2]|(B1 & B2 & B3 & B4)]; [rewrite !(ent_zero _ _ (row _ _ _ y)) by lia; reflexivity|].
    rewrite HP, ent_aug by auto. rewrite A3, A4, B4. cbn [andb]. ring. }
  split; [split|].
  - intros x Hx. unfold ppos. destruct (HC x Hx) as [-> E2]. destruct (contact_of c h x) as [k|]; [|reflexivity]. specialize (E2 k eq_refl).
    cbn [option_map]. f_equal. rewrite HX, col_aff by lia. destruct (Nat.eqb_spec (2 + k) K); [lia|reflexivity].
  - intros x y Hx Hy. apply HPC; intros E1; [apply (Hx id E1)|apply (Hy id E1)]; reflexivity.
  - split.
    + unfold ppos. rewrite Cid. cbn [option_map]. f_equal. rewrite HX, rot_aff, !col_aff by lia.
      destruct (Nat.eqb_spec (2 + length ids) K), (Nat.eqb_spec 1 K); try lia. reflexivity.
    + assert (forall a, (a < 3)%nat -> row c' h' s' (Leg id a) = (3 + 3 * K + a)%nat) as HL.
      { intros a Ha. cbn [row]. rewrite Cid. destruct (Nat.ltb_spec a 3); lia. }
      assert (forall n, (n < 9)%nat -> row c h s (Core n) = n) as HCo by (intros n Hn; cbn [row]; destruct (Nat.ltb_spec n 9); lia).
      assert (forall a g, (a < 3)%nat -> phi (lc_err c) K f (3 + 3 * K + a) g = foot_error (lc_err c) f a (fun x => g (row c h s x))) as HF.
      { intros a g Ha. unfold phi, foot_error. destruct (Nat.ltb_spec (3 + 3 * K + a) (3 + 3 * K)); [lia|]. destruct (Nat.ltb_spec (3 + 3 * K + a) (6 + 3 * K)); [|lia].
        replace (3 + 3 * K + a - (3 + 3 * K))%nat with a by lia. rewrite !HCo by lia. reflexivity. }
      assert (forall e a g g', (forall n, (n < 9)%nat -> g (Core n) = g' (Core n)) -> (a < 3)%nat -> foot_error e f a g = foot_error e f a g') as HE.
      { intros e a g g' Hg Ha. unfold foot_error. rewrite !Hg by lia. reflexivity. }
      assert (forall n, slot_leg (Core n) <> Some id) as HN by discriminate.
      assert (forall a, (a < 3)%nat -> (3 + 3 * K + a < 12 + 3 * K)%nat) as HB by lia.
      assert (forall a, (a < 3)%nat -> inwin (3 + 3 * K) 3 (3 + 3 * K + a) = true) as HW.
      { intros a Ha. unfold inwin. destruct (Nat.leb_spec (3 + 3 * K) (3 + 3 * K + a)), (Nat.ltb_spec (3 + 3 * K + a) (3 + 3 * K + 3)); try lia; reflexivity. }
      split.
      * intros a y Ha Hy. rewrite (HE _ a (fun x => pcov c' h' s' x y) (fun x => pcov c h s x y)), (HE _ a (fun x => pcov c' h' s' y x) (fun x => pcov c h s y x)) by auto.
        unfold pcov. rewrite !HL by auto.
        destruct (HR y Hy) as [[B1 B2]|(B1 & B2 & B3 & B4)].
        { assert (forall k, ent (sP s) k (row c h s y) = 0) as Z1 by (intros; apply ent_zero; lia).
          assert (forall k, ent (sP s) (row c h s y) k = 0) as Z2 by (intros; apply ent_zero; lia).
          rewrite (ent_zero _ _ (row c' h' s' y)), (ent_zero _ (row c' h' s' y)) by lia. unfold foot_error. rewrite !Z1, !Z2. destruct (lc_err c); split; ring. }
        rewrite HP, !ent_aug by auto. rewrite B3, andb_false_r. cbn [andb]. rewrite !B4, !Rplus_0_r, !HF by auto.
        split; [|reflexivity]. apply HE; auto. 
      * intros a b Ha Hb. rewrite (HE _ a _ (fun x => foot_error (lc_err c) f b (fun y => pcov c h s x y))); auto.
        unfold pcov. rewrite !HL, HP, ent_aug, !HW by auto. cbn [andb]. replace (3 + 3 * K + a - (3 + 3 * K))%nat with a by lia. replace (3 + 3 * K + b - (3 + 3 * K))%nat with b by lia.
        rewrite HX. unfold foot_noise at 2. rewrite rot_aff. f_equal. rewrite HF by auto. apply HE; auto. 
Qed.

Lemma fe_ext e f a g g' : (forall n, g (Core n) = g' (Core n)) -> foot_error e f a g = foot_error e f a g'.
Proof. intros Hg. unfold foot_error. rewrite !Hg. reflexivity. Qed.
Lemma fe_swap e f f' a b (g : slot -> slot -> R) :
  foot_error e f a (fun x => foot_error e f' b (fun y => g x y)) = foot_error e f' b (fun y => foot_error e f a (fun x => g x y)).
Proof. unfold foot_error. destruct e; ring. Qed.
Lemma fe_zero e f a g : (forall n, g (Core n) = 0) -> foot_error e f a g = 0.
Proof. intros H. unfold foot_error. rewrite !H. destruct e; ring. Qed.
Lemma touchdown_kept e c h s c' h' s' id f N id2 f2 N2 : touchdown e c h s id f N -> touchdown e c' h' s' id2 f2 N2 ->
  carried (fun x => x <> id2) c h s c' h' s' -> kept s s' -> id <> id2 -> nr (sP s') = nc (sP s') -> touchdown e c' h' s' id f N.
Proof.
  intros (A1 & A2 & A3) (B1 & B2 & B3) [C1 C2] HK Hne Hsq.
  assert (forall n m, pcov c' h' s' (Core n) (Core m) = pcov c h s (Core n) (Core m)) as HCC by (intros; apply C2; discriminate).
  assert (forall a n, pcov c' h' s' (Leg id a) (Core n) = pcov c h s (Leg id a) (Core n)) as HLC by (intros; apply C2; [intros ? [= <-]; auto|discriminate]).
  assert (forall a n, pcov c' h' s' (Core n) (Leg id a) = pcov c h s (Core n) (Leg id a)) as HCL by (intros; apply C2; [discriminate|intros ? [= <-]; auto]).
  split; [|split].
  - rewrite C1, A1 by auto. rewrite (kp_X _ _ HK) by lia. rewrite (kp_R _ _ HK). reflexivity.
  - intros a y Ha Hy.
    assert (slot_leg y <> Some id2 \/ exists b, y = Leg id2 b) as [Hy2|[b ->]].
    { destruct y as [n|i b|n]; try (left; discriminate). destruct (Nat.eq_dec i id2) as [->|]; [right; eauto|left; cbn; congruence]. }
    + assert (forall i, slot_leg y = Some i -> i <> id2) as Hy3 by (intros i E ->; auto).
      destruct (A2 a y Ha Hy) as [D1 D2]. split.
      * rewrite C2 by (auto; intros ? [= <-]; auto). rewrite D1. apply fe_ext. intros n. symmetry. apply C2; [discriminate|auto].
      * rewrite C2 by (auto; intros ? [= <-]; auto). rewrite D2. apply fe_ext. intros n. symmetry. apply C2; [auto|discriminate].
    + destruct (le_lt_dec 3 b) as [Hb|Hb].
      { assert (forall x, pcov c' h' s' x (Leg id2 b) = 0 /\ pcov c' h' s' (Leg id2 b) x = 0) as Z0.
        { intros x. unfold pcov. cbn [row]. destruct (contact_of c' h' id2); [destruct (Nat.ltb_spec b 3); [lia|]|]; split; apply ent_zero; lia. }
        split; [rewrite (proj1 (Z0 _))|rewrite (proj2 (Z0 _))]; symmetry; apply fe_zero; intros n; apply Z0. }
      destruct (B2 b (Leg id a) Hb) as [D1 D2]; [cbn; congruence|]. split.
      * rewrite D2. transitivity (foot_error e f2 b (fun z => foot_error e f a (fun x => pcov c h s x z))).
        { apply fe_ext. intros n. rewrite HLC. apply A2; [auto|discriminate]. }
        rewrite fe_swap. apply fe_ext. intros n. destruct (B2 b (Core n) Hb) as [_ E2]; [discriminate|]. rewrite E2. apply fe_ext. intros; symmetry; apply HCC.
      * rewrite D1. transitivity (foot_error e f2 b (fun z => foot_error e f a (fun x => pcov c h s z x))).
        { apply fe_ext. intros n. rewrite HCL. apply A2; [auto|discriminate]. }
        rewrite (fe_swap e f2 f b a (fun z x => pcov c h s z x)). apply fe_ext. intros n. destruct (B2 b (Core n) Hb) as [E2 _]; [discriminate|]. rewrite E2. apply fe_ext. intros; symmetry; apply HCC.
  - intros a b Ha Hb. rewrite C2 by (intros ? [= <-]; auto). rewrite A3 by auto. f_equal.
    + apply fe_ext. intros n. apply fe_ext. intros. symmetry. apply HCC.
    + unfold foot_noise. rewrite (kp_R _ _ HK). reflexivity.
Qed.
Definition nid (n : nat * V3 * M3) : nat := fst (fst n).
Lemma add_legs_ok c : forall new h s ids, tracks c h s ids -> NoDup (map nid new) -> (forall id, In id (map nid new) -> lc_map c id = None) ->
  exists h' s' m' ids', foldM (add_leg c) (h, s, lc_map c, sP s) new = Ok (h', s', m', sP s') /\
    (forall x, m' x <> None <-> lc_map c x <> None \/ In x (map nid new)) /\
    tracks (lc_set_map c m') h' s' ids' /\ kept s s' /\
    ((forall n, In n new -> psd (ofM3 (snd n))) -> psd (sP s) -> psd (sP s')) /\
    (psd (ofM3 (lc_contact_cov c)) -> contact_noise (2 + length ids) (sQc s) -> contact_noise (2 + length ids') (sQc s')) /\
    carried (fun x => ~ In x (map nid new)) c h s (lc_set_map c m') h' s' /\
    (forall id f N, In (id, f, N) new -> touchdown (lc_err c) (lc_set_map c m') h' s' id f N) /\
    (forall id f N, touchdown (lc_err c) c h s id f N -> ~ In id (map nid new) -> touchdown (lc_err c) (lc_set_map c m') h' s' id f N).
Proof.
  intros new. revert c. induction new as [|[[id f] N] new IH]; intros c h s ids T ND Hin; cbn [foldM].
  - exists h, s, (lc_map c), ids. split; [reflexivity|]. split; [intros; cbn; tauto|]. split; [destruct T; split; auto|]. split; [apply kept_refl|]. split; [auto|]. split; [auto|].
    destruct c. split; [apply carried_refl|]. split; [intros ? ? ? []|auto].
  - inversion ND as [|? ? Hni ND']; subst. cbn [map] in Hni. change (nid (id, f, N)) with id in Hni.
    assert (lc_map c id = None) as Em by (apply Hin; left; reflexivity).
    destruct (add_leg_ok c h s ids id f N T Em) as (h1 & s1 & E1 & T1 & K1 & P1 & X1 & Q1). rewrite E1. cbn [bind].
    destruct (add_facts c h s ids id h1 s1 f N T Em T1 P1 X1) as [C1 D1].
    set (c1 := lc_set_map c (mupd (lc_map c) id (Some (length h)))) in *.
    destruct (IH c1 h1 s1 _ T1) as (h2 & s2 & m2 & ids2 & F1 & F2 & F3 & F4 & F5 & F6 & F7 & F8 & F9); auto.
    { intros j Hj. unfold c1. cbn [lc_map lc_set_map]. unfold mupd. destruct (Nat.eqb_spec j id); [congruence|]. apply Hin. right; auto. }
    change (lc_set_map c1 m2) with (lc_set_map c m2) in *. change (lc_err c1) with (lc_err c) in *.
    exists h2, s2, m2, ids2. split; [exact F1|]. split; [|split; [exact F3|split; [eapply kept_trans; eauto|split; [|split; [|split; [|split]]]]]].
    + intros x. rewrite F2. unfold c1. cbn [lc_map lc_set_map map In]. unfold mupd. change (nid (id, f, N)) with id. destruct (Nat.eqb_spec x id) as [->|].
      * split; auto. intros _. left. discriminate.
      * split; [tauto|]. intros [H|[H|H]]; [left; exact H|exfalso; apply n; symmetry; exact H|right; exact H].
    + intros HN HP. apply F5; [intros; apply HN; right; auto|]. rewrite P1. apply psd_aug; auto.
      * pose proof (tr_wf _ _ _ _ T) as [[_ _ _ HP1 _] _ _ _ _]. exact HP1.
      * apply (HN (id, f, N)). left; auto.
    + intros HN HQ. apply F6; auto. rewrite app_length. cbn [length]. replace (2 + (length ids + 1))%nat with (S (2 + length ids)) by lia. apply Q1; auto.
    + eapply carried_trans; [eapply carried_weak; [|exact C1]|eapply carried_weak; [|exact F7]].
      * cbn. intros x Hx E0. apply Hx. left; auto.
      * cbn. intros x Hx E0. apply Hx. right; auto.
    + intros id0 f0 N0 [E0|Hi]; [|auto]. injection E0 as <- <- <-. apply F9; auto.
    + intros id0 f0 N0 TD Hn. apply F9; [|intros Hi; apply Hn; right; auto].
      eapply touchdown_kept; eauto. { intros ->. apply Hn. left; auto. }
      pose proof (tr_wf _ _ _ _ T1) as [[_ _ _ HP1 HP2] _ _ _ _]. congruence.
Qed.
