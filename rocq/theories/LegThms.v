(** Proofs about LeggedKinematicsCorrection: the scan, removal and augmentation loops. *)
From Coq Require Import Reals ZArith List Bool Lia Lra.
From Verif Require Import Res Vec3 Mat LieGroup MatInv Psd Spec SpecState LieSO3 LieSEK LieThms RobotState StateProofs StateHist StateMisc Inekf SpecFilter
  InekfProofs InekfThms Imu Propagation SpecProp Blk PsdBlk PropagationProofs PropagationThms Queue VelCorr LegCorr SpecCorr ImuNeg VelThms.
Import ListNotations.
Local Open Scope R_scope.

(** ** stacking *)
Lemma leg_cov_eq c o : leg_cov c o = kin_cov c o.
Proof. unfold leg_cov, kin_cov. generalize (lo_J o) (lc_enc_std c) (lc_kin_std c). ring3. Qed.

Lemma len_snoc {A} (o : list A) f : length (o ++ [f]) = S (length o).
Proof. rewrite app_length. cbn. lia. Qed.
Lemma div3_lt i n : (i < 3 * n)%nat -> (i / 3 < n)%nat.
Proof. intros. apply Nat.div_lt_upper_bound; lia. Qed.
Lemma nth_snoc_lt i (o : list foot) f : (i < 3 * length o)%nat -> nth (i / 3) (o ++ [f]) no_foot = nth (i / 3) o no_foot.
Proof. intros H. apply app_nth1. apply div3_lt; auto. Qed.
Lemma nth_snoc_eq i (o : list foot) f : (3 * length o <= i < 3 * length o + 3)%nat ->
  nth (i / 3) (o ++ [f]) no_foot = f /\ (i mod 3 = i - 3 * length o /\ i / 3 = length o)%nat.
Proof.
  intros H. assert (i = 3 * length o + (i - 3 * length o))%nat as E by lia.
  destruct (divmod3 (length o) (i - 3 * length o) ltac:(lia)) as [E1 E2]. rewrite <- E in E1, E2.
  rewrite E1, app_nth2, Nat.sub_diag by lia. auto.
Qed.

(** the accumulated H: Eigen starts with a 0x0 matrix *)
Definition leg_Hacc (K : nat) (o : list foot) : mat := match o with [] => mO 0 0 | _ => leg_H K o end.
Lemma leg_Hacc_cons K o : o <> [] -> leg_Hacc K o = leg_H K o.
Proof. destruct o; [congruence|reflexivity]. Qed.
Lemma nr_Hacc K o : nr (leg_Hacc K o) = (3 * length o)%nat.
Proof. destruct o; reflexivity. Qed.

Lemma mget_id a b : (a < 3)%nat -> (b < 3)%nat -> mget mid a b = if Nat.eqb a b then 1 else 0.
Proof. intros. destruct a as [|[|[|]]], b as [|[|[|]]]; try lia; reflexivity. Qed.

Lemma stack_H K o f : (3 + ft_k f < 3 + K)%nat ->
  put (put (put (cresize (leg_Hacc K o) (3 * length o + 3) (9 + 3 * K)) (3 * length o) 0 (mO 3 (9 + 3 * K)))
       (3 * length o) 6 (ofM3 ((- (1)) *ms mid))) (3 * length o) (9 + 3 * ft_k f) (ofM3 (1 *ms mid))
  = leg_Hacc K (o ++ [f]).
Proof.
  intros Hk. rewrite (leg_Hacc_cons K (o ++ [f])) by (intros E0; destruct o; discriminate E0).
  apply mat_ext; unfold leg_H; mdim; rewrite ?len_snoc; try lia. intros i j Hi Hj.
  rewrite ent_mk by (rewrite ?len_snoc; lia).
  destruct (le_lt_dec (3 * length o) i) as [L|L].
  - destruct (nth_snoc_eq i o f ltac:(lia)) as (-> & -> & _). 
    assert (exists a, i = 3 * length o + a /\ a < 3)%nat as (a & -> & Ha) by (exists (i - 3 * length o)%nat; lia).
    replace (3 * length o + a - 3 * length o)%nat with a by lia.
    destruct (le_lt_dec (9 + 3 * ft_k f) j) as [J1|J1]; [destruct (le_lt_dec (12 + 3 * ft_k f) j) as [J2|J2]|].
    + rewrite !ent_put_out by (mdim; lia). rewrite ent_put_in by (mdim; lia). rewrite ent_O. caseb; reflexivity.
    + rewrite ent_put_in by (mdim; lia). rewrite ent_ofM3 by lia. rewrite mscal_1.
      replace (3 * length o + a - 3 * length o)%nat with a by lia. rewrite mget_id by lia. caseb; reflexivity.
    + rewrite ent_put_out by (mdim; lia). destruct (le_lt_dec 6 j) as [J3|J3]; [destruct (le_lt_dec 9 j) as [J4|J4]|].
      * rewrite !ent_put_out by (mdim; lia). rewrite ent_put_in by (mdim; lia). rewrite ent_O. caseb; reflexivity.
      * rewrite ent_put_in by (mdim; lia). rewrite ent_ofM3, mget_scal by lia. 
        replace (3 * length o + a - 3 * length o)%nat with a by lia. rewrite mget_id by lia. caseb; ring.
      * rewrite !ent_put_out by (mdim; lia). rewrite ent_put_in by (mdim; lia). rewrite ent_O. caseb; reflexivity.
  - rewrite nth_snoc_lt by auto. rewrite !ent_put_out by (mdim; lia).
    assert (leg_Hacc K o = leg_H K o) as -> by (apply leg_Hacc_cons; intros ->; cbn in L; lia).
    unfold cresize. rewrite ent_resize_in by (unfold leg_H; mdim; lia). unfold leg_H. rewrite ent_mk by lia. reflexivity.
Qed.
Lemma stack_N X o f :
  put (put (put (cresize (leg_N X o) (3 * length o + 3) (3 * length o + 3)) (3 * length o) 0 (mO 3 (3 * length o)))
     0 (3 * length o) (mO (3 * length o) 3)) (3 * length o) (3 * length o) (ofM3 (rot X *m ft_cov f *m mtr (rot X)))
  = leg_N X (o ++ [f]).
Proof.
  apply mat_ext; unfold leg_N; mdim; rewrite ?len_snoc; try lia. intros i j Hi Hj.
  rewrite ent_mk by (rewrite ?len_snoc; lia).
  destruct (le_lt_dec (3 * length o) i) as [L|L].
  - destruct (nth_snoc_eq i o f ltac:(lia)) as (-> & Em & Ed). rewrite Em, Ed. clear Em Ed.
    destruct (le_lt_dec (3 * length o) j) as [M|M].
    + destruct (nth_snoc_eq j o f ltac:(lia)) as (_ & -> & ->). rewrite Nat.eqb_refl.
      rewrite ent_put_in by (mdim; lia). rewrite ent_ofM3 by lia. reflexivity.
    + rewrite !ent_put_out by (mdim; lia). rewrite ent_put_in by (mdim; lia). rewrite ent_O.
      pose proof (div3_lt _ _ M). caseb. reflexivity.
  - rewrite nth_snoc_lt by auto. pose proof (div3_lt _ _ L) as Li.
    destruct (le_lt_dec (3 * length o) j) as [M|M].
    + destruct (nth_snoc_eq j o f ltac:(lia)) as (_ & _ & ->). 
      rewrite ent_put_out by (mdim; lia). rewrite ent_put_in by (mdim; lia). rewrite ent_O. caseb. reflexivity.
    + rewrite !ent_put_out by (mdim; lia). unfold cresize. rewrite ent_resize_in by (mdim; lia). rewrite ent_mk by lia. reflexivity.
Qed.
Lemma stack_Z X o f :
  put (cresize (leg_Z X o) (3 * length o + 3) 1) (3 * length o) 0 (ofV3 (foot_innovation X f)) = leg_Z X (o ++ [f]).
Proof.
  apply mat_ext; unfold leg_Z; mdim; rewrite ?len_snoc; try lia. intros i j Hi Hj. replace j with 0%nat by lia.
  rewrite ent_mk by (rewrite ?len_snoc; lia).
  destruct (le_lt_dec (3 * length o) i) as [L|L].
  - destruct (nth_snoc_eq i o f ltac:(lia)) as (-> & -> & _). rewrite ent_put_in by (mdim; lia). rewrite ent_ofV3 by lia. reflexivity.
  - rewrite nth_snoc_lt by auto. rewrite ent_put_out by (mdim; lia). unfold cresize. rewrite ent_resize_in by (mdim; lia).
    rewrite ent_mk by lia. reflexivity.
Qed.

Lemma stack_leg_ok K s o f : wfp K s -> (2 + ft_k f < K)%nat ->
  stack_leg s (Z.of_nat (5 + ft_k f)) (ft_cov f) (ft_pos f) (leg_Hacc K o, leg_N (sX s) o, leg_Z (sX s) o)
  = Ok (leg_Hacc K (o ++ [f]), leg_N (sX s) (o ++ [f]), leg_Z (sX s) (o ++ [f])).
Proof.
  intros [[HX HT1 HT2 HP1 HP2] HK Hty HQ1 HQ2] Hk. destruct HX as [X1 X2 _ _].
  unfold stack_leg, dimP, dimTheta, get_world_rotation, get_rotation, get_position, get_aug_state.
  rewrite HT1, HP2. rewrite idx_ok by lia. cbn [bind]. rewrite Hty, nr_Hacc.
  replace (Z.to_nat (3 * Z.of_nat (5 + ft_k f) - Z.of_nat 6)) with (9 + 3 * ft_k f)%nat by lia.
  repeat (rewrite cput_ok by (mdim; unfold leg_N, leg_Z; mdim; lia); cbn [bind]).
  change (nr (leg_N (sX s) o)) with (3 * length o)%nat. change (nr (leg_Z (sX s) o)) with (3 * length o)%nat.
  repeat (rewrite cput_ok by (mdim; lia); cbn [bind]).
  rewrite cgetM3_ok by lia. cbn [bind].
  repeat (rewrite cput_ok by (mdim; lia); cbn [bind]).
  rewrite cgetV3_ok by lia. cbn [bind]. rewrite idx_ok by lia. cbn [bind]. rewrite Nat2Z.id, cgetV3_ok by lia. cbn [bind].
  repeat (rewrite cput_ok by (mdim; lia); cbn [bind]).
  rewrite stack_H by lia. rewrite (stack_N (sX s)). 
  change (getM3 (sX s) 0 0 *v ft_pos f -v (getV3 (sX s) 0 (5 + ft_k f) -v getV3 (sX s) 0 4)) with (foot_innovation (sX s) f).
  rewrite stack_Z. reflexivity.
Qed.

(** ** scanning the legs *)
Lemma tracks_st c h s ids : tracks c h s ids -> st_inv h s ids.
Proof.
  intros [[[HX HT1 HT2 HP1 HP2] HK Hty HQ1 HQ2] Hc Hn Hh _ _ _]. destruct HX as [X1 X2 _ _].
  split; auto; try lia. split; auto.
Qed.
Lemma tracks_contact c h s ids id a : tracks c h s ids -> lc_map c id = Some a ->
  contact_of c h id = Some (age a ids) /\ (age a ids < length ids)%nat /\ nth_error h a = Some (Z.of_nat (5 + age a ids)).
Proof.
  intros T E. pose proof (tr_in _ _ _ _ T _ _ E) as Hin. unfold contact_of. rewrite E.
  pose proof (tr_heap _ _ _ _ T _ _ (age_nth _ _ Hin)) as Eh. rewrite Eh. split; [f_equal; lia|]. split; [apply age_lt; auto|auto].
Qed.
Fixpoint removed (c : leg_corr) (id : nat) (legs : list leg_obs) : list nat :=
  match legs with
  | [] => []
  | o :: legs => (match lo_contact o, lc_map c id with false, Some _ => [id] | _, _ => [] end) ++ removed c (S id) legs
  end.
Fixpoint added (c : leg_corr) (id : nat) (legs : list leg_obs) : list (nat * V3 * M3) :=
  match legs with
  | [] => []
  | o :: legs => (match lo_contact o, lc_map c id with true, None => [(id, lo_pos o, kin_cov c o)] | _, _ => [] end) ++ added c (S id) legs
  end.
Lemma scan_ok c h s ids : tracks c h s ids -> forall legs id o r nw,
  scan_legs c h s id legs ((leg_Hacc (2 + length ids) o, leg_N (sX s) o, leg_Z (sX s) o), r, nw)
  = let o' := o ++ feet c h id legs in
    Ok ((leg_Hacc (2 + length ids) o', leg_N (sX s) o', leg_Z (sX s) o'), r ++ removed c id legs, nw ++ added c id legs).
Proof.
  intros T. induction legs as [|g legs IH]; intros id o r nw; cbn [scan_legs feet removed added].
  - rewrite !app_nil_r. reflexivity.
  - destruct (lc_map c id) as [a|] eqn:Ea.
    + destruct (tracks_contact c h s ids id a T Ea) as (E1 & E2 & E3). rewrite E1.
      destruct (lo_contact g).
      * cbn [heap_get]. rewrite E3. cbn [of_opt bind]. rewrite leg_cov_eq.
        pose proof (stack_leg_ok (2 + length ids) s o (mkFoot (age a ids) (lo_pos g) (kin_cov c g)) (tr_wf _ _ _ _ T)) as ES.
        cbn [ft_k ft_cov ft_pos] in ES. rewrite ES by lia. cbn [bind]. rewrite IH. cbv zeta. rewrite <- !app_assoc. reflexivity.
      * cbn [bind]. rewrite IH. cbv zeta. rewrite <- !app_assoc. reflexivity.
    + assert (contact_of c h id = None) as E1 by (unfold contact_of; rewrite Ea; reflexivity). rewrite E1.
      destruct (lo_contact g); cbn [bind]; rewrite IH; cbv zeta; rewrite <- ?app_assoc, ?leg_cov_eq; reflexivity.
Qed.

(** ** removal *)
Lemma psd_drop i m P : psd P -> psd (drop_rc i m P).
Proof.
  intros H. pose proof (psd_sq _ H) as Hs. replace (drop_rc i m P) with (reix (nr P - m) (fun r => Some (skip i m r)) P); [apply psd_reix; auto|].
  unfold reix, drop_rc. rewrite <- Hs. reflexivity.
Qed.
Lemma SEK_drop K X k : SEK (S K) X -> (k <= K)%nat -> SEK K (drop_rc (3 + k) 1 X).
Proof.
  intros [X1 X2 X3 X4] Hk. split.
  - rewrite nr_drop. lia.
  - rewrite nc_drop. lia.
  - replace (getM3 (drop_rc (3 + k) 1 X) 0 0) with (getM3 X 0 0); [auto|]. apply M3_ext. intros i j Hi Hj. rewrite !mget_getM3 by auto.
    unfold drop_rc. rewrite ent_mk by lia. unfold skip. caseb. destruct (Nat.ltb_spec (0 + i) (3 + k)), (Nat.ltb_spec (0 + j) (3 + k)); try lia. reflexivity.
  - intros i j Hi Hj. unfold drop_rc. rewrite ent_mk by lia. unfold skip.
    destruct (Nat.ltb_spec i (3 + k)), (Nat.ltb_spec j (3 + k)); rewrite X4 by lia; caseb; reflexivity.
Qed.
Lemma contact_noise_drop K Q k : contact_noise (S K) Q -> nr Q = (9 + 3 * S K)%nat -> (2 <= k <= K)%nat -> contact_noise K (drop_rc (3 * (1 + k)) 3 Q).
Proof.
  intros [H1 H2] E Hk. pose proof (psd_sq _ H1). split; [apply psd_drop; auto|]. intros i j Hij.
  unfold drop_rc. rewrite ent_mk_if. unfold inr. destruct (Nat.ltb_spec i (nr Q - 3)), (Nat.ltb_spec j (nc Q - 3)); cbn [andb]; auto.
  apply H2. unfold skip. destruct (Nat.ltb_spec i (3 * (1 + k))), (Nat.ltb_spec j (3 * (1 + k))); lia.
Qed.
(** quantities the loops preserve *)
Record kept (s s' : rstate) : Prop := {
  kp_X : forall k, (k < 2)%nat -> col (sX s') k = col (sX s) k;
  kp_R : rot (sX s') = rot (sX s);
  kp_T : sTheta s' = sTheta s;
  kp_st : st s' = st s; kp_tp : stprop s' = stprop s; kp_b : sbav s' = sbav s; kp_en : sen s' = sen s; kp_slip : sslip s' = sslip s }.
Lemma kept_refl s : kept s s. Proof. split; auto. Qed.
Lemma kept_trans a b c : kept a b -> kept b c -> kept a c.
Proof. intros [] []. split; try congruence. intros. rewrite kp_X1, kp_X0; auto. Qed.

Lemma getV3_drop_lt X i c : (3 < i)%nat -> (3 <= nr X - 1)%nat -> (c < i)%nat -> (c < nc X - 1)%nat -> getV3 (drop_rc i 1 X) 0 c = getV3 X 0 c.
Proof.
  intros. apply V3_ext. intros a Ha. rewrite !vget_getV3 by auto. unfold drop_rc. rewrite ent_mk by lia. unfold skip.
  destruct (Nat.ltb_spec (0 + a) i), (Nat.ltb_spec c i); try lia. reflexivity.
Qed.
Lemma getM3_drop_lt X i : (3 < i)%nat -> (3 <= nr X - 1)%nat -> (3 <= nc X - 1)%nat -> getM3 (drop_rc i 1 X) 0 0 = getM3 X 0 0.
Proof.
  intros. apply M3_ext. intros a b Ha Hb. rewrite !mget_getM3 by auto. unfold drop_rc. rewrite ent_mk by lia. unfold skip.
  destruct (Nat.ltb_spec (0 + a) i), (Nat.ltb_spec (0 + b) i); try lia. reflexivity.
Qed.

Lemma remove_leg_ok c h s ids id a : tracks c h s ids -> lc_map c id = Some a ->
  exists h' s', remove_leg (h, s, lc_map c) id = Ok (h', s', mupd (lc_map c) id None) /\
    tracks (lc_set_map c (mupd (lc_map c) id None)) h' s' (remove_nth (age a ids) ids) /\ kept s s' /\
    sP s' = drop_rc (3 * (3 + age a ids)) 3 (sP s) /\
    sX s' = drop_rc (5 + age a ids) 1 (sX s) /\
    sQc s' = drop_rc (3 * (3 + age a ids)) 3 (sQc s).
Proof.
  intros T E. destruct (tracks_contact c h s ids id a T E) as (E1 & E2 & E3).
  unfold remove_leg. rewrite E. cbn [heap_get]. rewrite E3. cbn [of_opt bind]. rewrite idx_ok by lia. cbn [bind]. rewrite Nat2Z.id.
  destruct (del_aug_state_ok h s ids (age a ids) (tracks_st _ _ _ _ T) E2) as (h' & s' & D1 & D2 & D3 & D4 & D5).
  rewrite D1. cbn [bind]. exists h', s'. split; [reflexivity|].
  pose proof T as [[[HX HT1 HT2 HP1 HP2] HK Hty HQ1 HQ2] Hc Hn Hh Hin Hinj Honto].
  pose proof (remove_nth_length ids (age a ids) E2) as HL. pose proof HX as [X1 X2 _ _].
  assert (In a ids) as Hia by eauto.
  split.
  - split.
    + rewrite HL. subst s'. split; srs; cbn [del_spec sX sTheta sP sQc stype]; auto.
      * split; srs; cbn [del_spec sX sTheta sP sQc stype]; auto; try (rewrite nr_drop; lia); try (rewrite nc_drop; lia).
        replace (5 + age a ids)%nat with (3 + (2 + age a ids))%nat by lia. apply SEK_drop; [|lia].
        replace (S (2 + (length ids - 1))) with (2 + length ids)%nat by lia. auto.
      * lia.
      * rewrite nr_drop. lia.
      * rewrite nc_drop. lia.
    + subst s'. reflexivity.
    + apply remove_nth_NoDup; auto.
    + apply (si_ids _ _ _ D2).
    + cbn [lc_map lc_set_map]. unfold mupd. intros j b. destruct (Nat.eqb_spec j id); [discriminate|]. intros Ej.
      rewrite <- remove_remove_nth by auto. apply in_in_remove; eauto. intros ->. apply n. eauto.
    + cbn [lc_map lc_set_map]. unfold mupd. intros i j b. destruct (Nat.eqb_spec i id), (Nat.eqb_spec j id); try discriminate; eauto.
    + cbn [lc_map lc_set_map]. unfold mupd. rewrite <- remove_remove_nth by auto. intros b Hb. apply in_remove in Hb. destruct Hb as [Hb Hne].
      destruct (Honto b Hb) as [j Ej]. exists j. destruct (Nat.eqb_spec j id) as [->|]; [congruence|auto].
  - subst s'. srs. cbn [del_spec sP sX sQc]. split; [|auto].
    split; srs; cbn [del_spec sX sTheta st stprop sbav sen sslip]; auto.
    + intros k Hk. unfold col. apply getV3_drop_lt; lia.
    + unfold rot. apply getM3_drop_lt; lia.
Qed.
Lemma removed_spec c id0 : forall legs id, In id0 (removed c id legs) <-> exists o, (id <= id0)%nat /\ nth_error legs (id0 - id) = Some o /\ lo_contact o = false /\ lc_map c id0 <> None.
Proof.
  induction legs as [|g legs IH]; intros id; cbn [removed].
  - split; [intros []|]. intros (o & _ & E & _). destruct (id0 - id)%nat; discriminate.
  - rewrite in_app_iff, IH. split.
    + intros [H|(o & H1 & H2 & H3)].
      * destruct (lo_contact g) eqn:Eg, (lc_map c id) eqn:Em; cbn in H; try tauto. destruct H as [->|[]].
        exists g. rewrite Nat.sub_diag. repeat split; auto. congruence.
      * exists o. split; [lia|]. replace (id0 - id)%nat with (S (id0 - S id)) by lia. auto.
    + intros (o & H1 & H2 & H3 & H4). destruct (Nat.eq_dec id0 id) as [->|Hne].
      * rewrite Nat.sub_diag in H2. injection H2 as ->. left. rewrite H3. destruct (lc_map c id); [left; auto|congruence].
      * right. exists o. split; [lia|]. replace (id0 - id)%nat with (S (id0 - S id)) in H2 by lia. auto.
Qed.
Lemma removed_nodup c : forall legs id, NoDup (removed c id legs).
Proof.
  induction legs as [|g legs IH]; intros id; cbn [removed]; [constructor|].
  destruct (lo_contact g), (lc_map c id) eqn:Em; cbn [app]; auto. constructor; auto.
  rewrite removed_spec. intros (o & H & _). lia.
Qed.
Definition mupds (m : nat -> option nat) (l : list nat) (x : nat) : option nat := if in_dec Nat.eq_dec x l then None else m x.
Lemma remove_legs_ok c : forall rem h s ids, tracks c h s ids -> NoDup rem -> (forall id, In id rem -> lc_map c id <> None) ->
  exists h' s' m' ids', foldM remove_leg (h, s, lc_map c) rem = Ok (h', s', m') /\ (forall x, m' x = mupds (lc_map c) rem x) /\
    tracks (lc_set_map c m') h' s' ids' /\ kept s s' /\ (psd (sP s) -> psd (sP s')) /\
    (contact_noise (2 + length ids) (sQc s) -> contact_noise (2 + length ids') (sQc s')).
Proof.
  intros rem. revert c. induction rem as [|id rem IH]; intros c h s ids T ND Hin; cbn [foldM].
  - exists h, s, (lc_map c), ids. split; [reflexivity|]. split; [reflexivity|]. split; [destruct T; split; auto|]. split; [apply kept_refl|auto].
  - inversion ND; subst. destruct (lc_map c id) as [a|] eqn:Ea; [|exfalso; apply (Hin id); [left; auto|auto]].
    destruct (remove_leg_ok c h s ids id a T Ea) as (h1 & s1 & E1 & T1 & K1 & P1 & X1 & Q1). rewrite E1. cbn [bind].
    destruct (tracks_contact c h s ids id a T Ea) as (_ & E2 & _).
    specialize (IH (lc_set_map c (mupd (lc_map c) id None)) h1 s1 _ T1).
    destruct IH as (h2 & s2 & m2 & ids2 & F1 & F2 & F3 & F4 & F5 & F6); auto.
    { cbn [lc_map lc_set_map]. intros j Hj. unfold mupd. destruct (Nat.eqb_spec j id); [subst; tauto|]. apply Hin. right; auto. }
    cbn [lc_map lc_set_map] in *. exists h2, s2, m2, ids2. split; [exact F1|]. split; [|split; [exact F3|split; [eapply kept_trans; eauto|split]]].
    + intros x. rewrite F2. unfold mupds, mupd. destruct (in_dec Nat.eq_dec x rem), (in_dec Nat.eq_dec x (id :: rem)); auto.
      * exfalso. apply n. right; auto.
      * destruct (Nat.eqb_spec x id); auto. destruct i as [->|]; [tauto|tauto].
      * destruct (Nat.eqb_spec x id); auto. exfalso. apply n0. left; auto.
    + intros HP. apply F5. rewrite P1. apply psd_drop; auto.
    + intros HQ. apply F6. rewrite Q1, remove_nth_length by auto. replace (3 * (3 + age a ids))%nat with (3 * (1 + (2 + age a ids)))%nat by lia.
      pose proof (tr_wf _ _ _ _ T) as [_ _ _ HQ1 _].
      apply contact_noise_drop; [|lia|lia]. replace (S (2 + (length ids - 1))) with (2 + length ids)%nat by lia. auto.
Qed.

(** ** augmentation *)
Definition augF (e : error_type) (K : nat) (pose : V3) : mat :=
  mk (12 + 3 * K) (9 + 3 * K) (fun i j =>
    if (i <? 3 + 3 * K)%nat then (if Nat.eqb i j then 1 else 0)
    else if (i <? 6 + 3 * K)%nat then
      (if (j <? 3)%nat then match e with LeftInvariant => mget (skew (vneg pose)) (i - (3 + 3 * K)) j | RightInvariant => 0 end
       else if Nat.eqb j (6 + (i - (3 + 3 * K))) then 1 else 0)
    else if Nat.eqb (i - 3) j then 1 else 0).
Definition augG (e : error_type) (K : nat) (Rm : M3) : mat :=
  mk (12 + 3 * K) 3 (fun i j =>
    if ((3 + 3 * K <=? i) && (i <? 6 + 3 * K))%nat then mget (match e with LeftInvariant => mid | RightInvariant => Rm end) (i - (3 + 3 * K)) j else 0).
Definition aug_cov (e : error_type) (K : nat) (X : mat) (pose : V3) (cov : M3) (P : mat) : mat :=
  augF e K pose *M P *M mT (augF e K pose) +M augG e K (rot X) *M ofM3 cov *M mT (augG e K (rot X)).
Lemma aug_F_G_ok e K s pose : wfp K s -> aug_F_G e s pose = Ok (augF e K pose, augG e K (rot (sX s))).
Proof.
  intros [[HX HT1 HT2 HP1 HP2] HK Hty HQ1 HQ2]. destruct HX as [X1 X2 _ _].
  unfold aug_F_G, dimP, dimTheta, get_world_rotation, get_rotation. rewrite HT1, HP2, Hty. rewrite idx_ok by lia. cbn [bind].
  replace (Z.to_nat (Z.of_nat (9 + 3 * K) - Z.of_nat 6)) with (3 + 3 * K)%nat by lia.
  repeat (rewrite cput_ok by (mdim; lia); cbn [bind]). mdim.
  rewrite idx_ok by lia. cbn [bind].
  replace (Z.to_nat (Z.of_nat (9 + 3 * K + 3) - Z.of_nat 6 - 3)) with (3 + 3 * K)%nat by lia.
  assert (forall F, nr F = (9 + 3 * K + 3)%nat -> nc F = (9 + 3 * K)%nat -> forall G, nr G = (9 + 3 * K + 3)%nat -> nc G = 3%nat ->
    F = augF e K pose -> G = augG e K (rot (sX s)) -> @Ok (mat * mat) (F, G) = Ok (augF e K pose, augG e K (rot (sX s)))) as Hfin.
  { intros F _ _ G _ _ -> ->. reflexivity. }
  destruct e.
  - repeat (rewrite cput_ok by (mdim; lia); cbn [bind]). apply Hfin; mdim.
    + apply mat_ext; unfold augF; mdim. intros i j Hi Hj. rewrite ent_mk by lia.
      destruct (Nat.ltb_spec i (3 + 3 * K)).
      * rewrite !(ent_put_out _ (3 + 3 * K)) by (mdim; lia). rewrite ent_put_out by (mdim; lia).
        destruct (le_lt_dec (3 + 3 * K) j).
        -- rewrite ent_put_out, ent_O by (mdim; lia). caseb; reflexivity.
        -- rewrite ent_put_in by (mdim; lia). rewrite !Nat.sub_0_r, ent_eye by lia. reflexivity.
      * destruct (Nat.ltb_spec i (6 + 3 * K)).
        -- destruct (Nat.ltb_spec j 3).
           ++ rewrite ent_put_in by (mdim; lia). rewrite ent_ofM3, Nat.sub_0_r by lia. reflexivity.
           ++ rewrite ent_put_out by (mdim; lia). destruct (le_lt_dec 6 j); [destruct (le_lt_dec 9 j)|].
              ** rewrite !ent_put_out, ent_O by (mdim; lia). caseb; reflexivity.
              ** rewrite ent_put_in by (mdim; lia). rewrite ent_ofM3, mget_id by lia. caseb; reflexivity.
              ** rewrite !ent_put_out, ent_O by (mdim; lia). caseb; reflexivity.
        -- rewrite !(ent_put_out _ (3 + 3 * K)) by (mdim; lia).
           destruct (le_lt_dec (3 + 3 * K) j).
           ++ rewrite ent_put_in by (mdim; lia). rewrite ent_eye by lia. caseb; reflexivity.
           ++ rewrite !ent_put_out, ent_O by (mdim; lia). caseb; reflexivity.
    + apply mat_ext; unfold augG; mdim. intros i j Hi Hj. rewrite ent_mk by lia.
      destruct (Nat.leb_spec (3 + 3 * K) i), (Nat.ltb_spec i (6 + 3 * K)); cbn [andb].
      * rewrite ent_put_in by (mdim; lia). rewrite ent_ofM3, Nat.sub_0_r by lia. reflexivity.
      * rewrite ent_put_out, ent_O by (mdim; lia). reflexivity.
      * rewrite ent_put_out, ent_O by (mdim; lia). reflexivity.
      * rewrite ent_put_out, ent_O by (mdim; lia). reflexivity.
  - repeat (rewrite cput_ok by (mdim; lia); cbn [bind]). rewrite cgetM3_ok by lia. cbn [bind].
    repeat (rewrite cput_ok by (mdim; lia); cbn [bind]). apply Hfin; mdim.
    + apply mat_ext; unfold augF; mdim. intros i j Hi Hj. rewrite ent_mk by lia.
      destruct (Nat.ltb_spec i (3 + 3 * K)).
      * rewrite !(ent_put_out _ (3 + 3 * K)) by (mdim; lia). rewrite ent_put_out by (mdim; lia).
        destruct (le_lt_dec (3 + 3 * K) j).
        -- rewrite ent_put_out, ent_O by (mdim; lia). caseb; reflexivity.
        -- rewrite ent_put_in by (mdim; lia). rewrite !Nat.sub_0_r, ent_eye by lia. reflexivity.
      * destruct (Nat.ltb_spec i (6 + 3 * K)).
        -- destruct (Nat.ltb_spec j 3).
           ++ rewrite !ent_put_out, ent_O by (mdim; lia). reflexivity.
           ++ destruct (le_lt_dec 6 j); [destruct (le_lt_dec 9 j)|].
              ** rewrite !ent_put_out, ent_O by (mdim; lia). caseb; reflexivity.
              ** rewrite ent_put_in by (mdim; lia). rewrite ent_ofM3, mget_id by lia. caseb; reflexivity.
              ** rewrite !ent_put_out, ent_O by (mdim; lia). caseb; reflexivity.
        -- rewrite !(ent_put_out _ (3 + 3 * K)) by (mdim; lia).
           destruct (le_lt_dec (3 + 3 * K) j).
           ++ rewrite ent_put_in by (mdim; lia). rewrite ent_eye by lia. caseb; reflexivity.
           ++ rewrite !ent_put_out, ent_O by (mdim; lia). caseb; reflexivity.
    + apply mat_ext; unfold augG; mdim. intros i j Hi Hj. rewrite ent_mk by lia.
      destruct (Nat.leb_spec (3 + 3 * K) i), (Nat.ltb_spec i (6 + 3 * K)); cbn [andb].
      * rewrite ent_put_in by (mdim; lia). rewrite ent_ofM3, Nat.sub_0_r by lia. reflexivity.
      * rewrite ent_put_out, ent_O by (mdim; lia). reflexivity.
      * rewrite ent_put_out, ent_O by (mdim; lia). reflexivity.
      * rewrite ent_put_out, ent_O by (mdim; lia). reflexivity.
Qed.
