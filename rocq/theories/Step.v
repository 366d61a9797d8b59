(** Proofs: one iteration is the textbook filter step with the configured parameters (C83). *)
From Coq Require Import Reals ZArith List Bool Arith Lia Lra.
From Verif Require Import Res Vec3 Mat MatInv Psd Spec SpecState LieGroup LieSO3 LieSEK RobotState StateProofs StateHist StateMisc Inekf SpecFilter InekfProofs InekfThms Blk Imu Quat Propagation SpecProp
  PropagationProofs PropagationThms PropagationExact PropagationUniq ImuRest ImuThms ImuNeg Queue VelCorr LegCorr SpecCorr VelThms PsdBlk LegThms LegAdd LegLoop LegUpd LegHist Estimator SpecEst EstInv EstSafe EstPub EstHist EstTime SpecTrack Track SpecObs Obs ObsEst SpecStep.
Import ListNotations.
Local Open Scope R_scope.

(** ** the stored process noise: nothing but the block of the last contact *)
Definition Qn (v : R) (K : nat) (b : bool) : mat :=
  mk (9 + 3 * K) (9 + 3 * K) (fun i j => if (Nat.eqb i j && (9 <=? i) && b && (3 * K <=? i) && (i <? 3 + 3 * K))%nat then v else 0).
Definition qn (v : R) (s : rstate) : Prop := exists K b, (2 <= K)%nat /\ sQc s = Qn v K b.
Ltac cases := repeat match goal with
  | |- context [Nat.eqb ?x ?y] => destruct (Nat.eqb_spec x y)
  | |- context [(?x <=? ?y)%nat] => destruct (Nat.leb_spec x y)
  | |- context [(?x <? ?y)%nat] => destruct (Nat.ltb_spec x y)
  end; cbn [andb]; try lia.
Lemma Qn2 v b : Qn v 2 b = mO 15 15.
Proof. apply mat_ext; [reflexivity|reflexivity|]. intros i j Hi Hj. change (i < 15)%nat in Hi. change (j < 15)%nat in Hj. unfold Qn. rewrite ent_mk by lia. rewrite ent_O. destruct b; cases; reflexivity. Qed.
Lemma Qn_drop v K b k : (2 <= k <= K)%nat -> drop_rc (3 * (1 + k)) 3 (Qn v (S K) b) = Qn v K (b && negb (Nat.eqb k K)).
Proof.
  intros Hk. apply mat_ext; [rewrite nr_drop; unfold Qn; rewrite !nr_mk; lia|rewrite nc_drop; unfold Qn; rewrite !nc_mk; lia|]. rewrite nr_drop, nc_drop. unfold Qn at 1 2. rewrite nr_mk, nc_mk. intros i j Hi Hj.
  unfold drop_rc. rewrite ent_mk by (unfold Qn; rewrite ?nr_mk, ?nc_mk; lia). unfold Qn, skip. rewrite !ent_mk by (destruct (Nat.ltb_spec i (3 * (1 + k))), (Nat.ltb_spec j (3 * (1 + k))); lia).
  destruct b; cbn [andb]; [|rewrite !andb_false_r; reflexivity].
  destruct (Nat.ltb_spec i (3 * (1 + k))), (Nat.ltb_spec j (3 * (1 + k))); cases; cbn [negb andb]; try reflexivity; try lia.
Qed.
Lemma Qn_add v K b Qa N : (2 <= K)%nat -> N = v *ms mid -> nr Qa = (12 + 3 * K)%nat -> nc Qa = (12 + 3 * K)%nat ->
  (forall i j, (i < 12 + 3 * K)%nat -> (j < 12 + 3 * K)%nat ->
        ent Qa i j =
        if inwin (3 + 3 * K) 3 i && inwin (3 + 3 * K) 3 j
        then mget N (i - (3 + 3 * K)) (j - (3 + 3 * K))
        else
          let src i := if (i <? 4 + K)%nat then Some i
                       else if (6 + 3 * K <=? i)%nat then Some (i - 3)%nat else None in
          match src i, src j with
          | Some a, Some b0 => ent (Qn v K b) a b0
          | _, _ => 0
          end) -> Qa = Qn v (S K) true.
Proof.
  intros HK -> H1 H2 HE. apply mat_ext; [rewrite H1; unfold Qn; rewrite nr_mk; lia|rewrite H2; unfold Qn; rewrite nc_mk; lia|]. rewrite H1, H2. intros i j Hi Hj.
  rewrite HE by auto. unfold Qn. rewrite (ent_mk (9 + 3 * S K)) by lia. unfold inwin.
  destruct (Nat.leb_spec (3 + 3 * K) i), (Nat.ltb_spec i (3 + 3 * K + 3)), (Nat.leb_spec (3 + 3 * K) j), (Nat.ltb_spec j (3 + 3 * K + 3)); cbn [andb]; try lia; cbv zeta.
  { assert (i - (3 + 3 * K) < 3)%nat as Ha by lia. assert (j - (3 + 3 * K) < 3)%nat as Hb by lia.
    replace (Nat.eqb i j) with (Nat.eqb (i - (3 + 3 * K)) (j - (3 + 3 * K))) by (destruct (Nat.eqb_spec (i - (3 + 3 * K)) (j - (3 + 3 * K))), (Nat.eqb_spec i j); lia).
    revert Ha Hb. generalize (i - (3 + 3 * K))%nat, (j - (3 + 3 * K))%nat. intros a c Ha Hb.
    destruct (Nat.leb_spec 9 i), (Nat.leb_spec (3 * S K) i), (Nat.ltb_spec i (3 + 3 * S K)); try lia.
    destruct a as [|[|[|]]], c as [|[|[|]]]; try lia; cbn; ring. }
  all: assert ((Nat.eqb i j && (9 <=? i) && true && (3 * S K <=? i) && (i <? 3 + 3 * S K))%nat = false) as -> by cases.
  all: destruct (Nat.ltb_spec i (4 + K)), (Nat.leb_spec (6 + 3 * K) i), (Nat.ltb_spec j (4 + K)), (Nat.leb_spec (6 + 3 * K) j); try lia; try reflexivity.
  all: rewrite ent_mk by lia; destruct b; [|rewrite !andb_false_r; reflexivity]; cases; reflexivity.
Qed.
Lemma qn_K v s ids c h : tracks c h s ids -> qn v s -> exists b, sQc s = Qn v (2 + length ids) b.
Proof.
  intros T (K & b & HK & E). exists b. rewrite E. f_equal. pose proof (tr_wf _ _ _ _ T) as [_ _ _ HQ _]. rewrite E in HQ. unfold Qn in HQ. rewrite nr_mk in HQ. lia.
Qed.
Lemma remove_legs_Q v : forall rem c h s ids h' s' m', tracks c h s ids -> NoDup rem -> (forall id, In id rem -> lc_map c id <> None) ->
  foldM remove_leg (h, s, lc_map c) rem = Ok (h', s', m') -> qn v s -> qn v s'.
Proof.
  induction rem as [|id rem IH]; intros c h s ids h' s' m' T ND Hin E HQ; cbn [foldM] in E.
  - injection E as <- <- <-. exact HQ.
  - inversion ND as [|x y Hni ND']; subst. destruct (lc_map c id) as [a|] eqn:Ea; [|exfalso; apply (Hin id); [left; auto|auto]].
    destruct (remove_leg_ok c h s ids id a T Ea) as (h1 & s1 & E1 & T1 & K1 & P1 & X1 & Q1). rewrite E1 in E. cbn [bind] in E.
    destruct (tracks_contact c h s ids id a T Ea) as (_ & E2 & _).
    apply (IH (lc_set_map c (mupd (lc_map c) id None)) h1 s1 _ h' s' m' T1 ND'); [|exact E|].
    { cbn [lc_map lc_set_map]. intros j Hj. unfold mupd. destruct (Nat.eqb_spec j id); [subst; tauto|]. apply Hin. right; auto. }
    destruct (qn_K v s ids c h T HQ) as (b & Eb). rewrite Eb in Q1. replace (3 * (3 + age a ids))%nat with (3 * (1 + (2 + age a ids)))%nat in Q1 by lia.
    replace (2 + length ids)%nat with (S (1 + length ids))%nat in Q1 by lia. rewrite Qn_drop in Q1 by lia.
    eexists _, _. split; [|exact Q1]. lia.
Qed.
Lemma add_leg_Q v c h s ids id pose cov h' s' m' P' : tracks c h s ids -> lc_contact_cov c = v *ms mid ->
  add_leg c (h, s, lc_map c, sP s) (id, pose, cov) = Ok (h', s', m', P') -> qn v s -> qn v s'.
Proof.
  intros T HC E HQ. destruct (qn_K v s ids c h T HQ) as (b & Eb). set (K := (2 + length ids)%nat) in *.
  pose proof T as [W Hc Hn Hh Hin Hinj Honto]. pose proof W as [[HX HT1 HT2 HP1 HP2] HK Hty HQ1 HQ2]. pose proof HX as [X1 X2 _ _].
  unfold add_leg, get_position, get_rotation in E. rewrite cgetV3_ok in E by lia. cbn [bind] in E. rewrite cgetM3_ok in E by lia. cbn [bind] in E. rewrite Hty in E.
  fold K in W, HX, HP1, HP2, HK, HQ1, HQ2. rewrite (aug_F_G_ok _ K) in E by auto. cbn [bind] in E.
  assert (nr (augF (lc_err c) K pose) = (12 + 3 * K)%nat /\ nc (augF (lc_err c) K pose) = (9 + 3 * K)%nat) as [F1 F2] by (split; reflexivity).
  assert (nr (augG (lc_err c) K (rot (sX s))) = (12 + 3 * K)%nat /\ nc (augG (lc_err c) K (rot (sX s))) = 3%nat) as [G1 G2] by (split; reflexivity).
  repeat (first [rewrite cmul_ok in E by (mdim; congruence) | rewrite cadd_ok in E by (mdim; congruence)]; cbn [bind] in E).
  fold (aug_cov (lc_err c) K (sX s) pose cov (sP s)) in E. cbn [heap_new] in E.
  set (u := getV3 (sX s) 0 4 +v getM3 (sX s) 0 0 *v pose) in E.
  destruct (add_aug_state_ok h s ids u (aug_cov (lc_err c) K (sX s) pose cov (sP s)) (lc_contact_cov c) (tracks_st _ _ _ _ T)) as (Qa & s1 & E1 & I & Q1 & Q2 & Q3 & ES).
  { rewrite nr_aug_cov, HT1. lia. } { rewrite nc_aug_cov, HT1. lia. }
  rewrite E1 in E. cbn [bind] in E. apply bind_inv in E. destruct E as (h2 & _ & E). injection E as <- <- <- <-.
  exists (S K), true. split; [lia|]. rewrite ES. cbn [sQc set_cmap set_Qc]. rewrite HT1 in *.
  apply (Qn_add v K b Qa (lc_contact_cov c)); auto; try lia.
  intros i j Hi Hj. rewrite Q3 by lia. replace (9 + 3 * length ids)%nat with (3 + 3 * K)%nat by lia.
  replace (12 + 3 * length ids)%nat with (6 + 3 * K)%nat by lia. replace (6 + length ids)%nat with (4 + K)%nat by lia. rewrite Eb. reflexivity.
Qed.
Lemma add_legs_Q v : forall new c h s ids h' s' m' P', tracks c h s ids -> NoDup (map nid new) -> (forall id, In id (map nid new) -> lc_map c id = None) -> lc_contact_cov c = v *ms mid ->
  foldM (add_leg c) (h, s, lc_map c, sP s) new = Ok (h', s', m', P') -> qn v s -> qn v s'.
Proof.
  induction new as [|[[id f] N] new IH]; intros c h s ids h' s' m' P' T ND Hin HC E HQ; cbn [foldM] in E.
  - injection E as <- <- <- <-. exact HQ.
  - inversion ND as [|? ? Hni ND']; subst. cbn [map] in Hni. change (nid (id, f, N)) with id in Hni.
    assert (lc_map c id = None) as Em by (apply Hin; left; reflexivity).
    destruct (add_leg_ok c h s ids id f N T Em) as (h1 & s1 & E1 & T1 & K1 & P1 & X1 & Q1). rewrite E1 in E. cbn [bind] in E.
    pose proof (add_leg_Q v c h s ids id f N _ _ _ _ T HC E1 HQ) as HQ1.
    apply (IH (lc_set_map c (mupd (lc_map c) id (Some (length h)))) h1 s1 _ h' s' m' P' T1 ND'); auto.
    intros j Hj. cbn [lc_map lc_set_map]. unfold mupd. destruct (Nat.eqb_spec j id); [congruence|]. apply Hin. right; auto.
Qed.
Lemma leg_update_Q v c h m s ids c' h' s' : tracks c h s ids -> lc_contact_cov c = v *ms mid -> leg_update c h m s = Ok (c', h', s') -> qn v s -> qn v s'.
Proof.
  intros T HC E HQ. pose proof E as E0. rewrite (leg_update_eq c h m s ids T) in E0. cbv zeta in E0. apply bind_inv in E0. destruct E0 as (s1 & E1 & E0).
  assert (leg_corrected (2 + length ids) c h m s s1) as HL. { red. destruct (Nat.eqb _ 0); congruence. }
  destruct (corrected_tracks c h m s s1 ids T HL) as [T1 M]. destruct M as (_ & _ & _ & _ & M5 & _). cbn in M5.
  assert (qn v s1) as HQ1 by (unfold qn in *; rewrite M5; exact HQ).
  destruct (remove_legs_carried c (removed c 0 (lm_legs m)) h s1 ids T1 (removed_nodup _ _ _)) as (h2 & s2 & m2 & ids2 & F1 & F2 & F3 & _).
  { intros id Hid. apply removed_spec in Hid. destruct Hid as (? & _ & _ & _ & H). exact H. }
  rewrite F1 in E0. cbn [bind] in E0. apply bind_inv in E0. destruct E0 as ([[[h3 s3] m3] P3] & E3 & E0). injection E0 as <- <- <-.
  assert (qn v s2) as HQ2.
  { eapply remove_legs_Q; [exact T1|apply (removed_nodup c (lm_legs m) 0)| |exact F1|exact HQ1]. intros id Hid. apply removed_spec in Hid. destruct Hid as (? & _ & _ & _ & H). exact H. }
  eapply (add_legs_Q v (added c 0 (lm_legs m)) (lc_set_map c m2)); [exact F3|apply added_nodup| |exact HC|exact E3|exact HQ2].
  intros id Hid. apply added_spec in Hid. destruct Hid as (? & _ & _ & _ & H). cbn [lc_map lc_set_map]. rewrite F2. unfold mupds. rewrite H. destruct (in_dec _ _ _); reflexivity.
Qed.

(** ** the corrections *)
Lemma var_dflt o : dflt o (1 / 10) * dflt o (1 / 10) = var_of o (1 / 100).
Proof. destruct o; cbn; lra. Qed.
Definition conf (e : error_type) (g : corr_cfg) (c : corr_obj) : Prop := c_fixed c = c_fixed (mk_corr e g).
Lemma conf_vel e g c : conf e (GVel g) (CVel c) -> vc_set_queue c [] = vel_settings e g.
Proof.
  unfold conf. destruct c as [q er cv th Rm sc]. cbn. intros E. injection E as -> -> -> -> ->. unfold vc_set_queue, vel_settings. cbn. rewrite var_dflt. reflexivity.
Qed.
Lemma conf_leg e g c : conf e (GLeg g) (CLeg c) -> lc_set_queue c [] = leg_settings e g (lc_map c).
Proof.
  unfold conf. destruct c as [q er en ki cv th mp]. cbn. intros E. injection E as -> -> -> -> ->. unfold lc_set_queue, leg_settings. cbn. rewrite var_dflt. reflexivity.
Qed.
Lemma conf_obj e g c : conf e g c -> obj_of g c.
Proof. unfold conf. intros H. eapply obj_fixed; [|exact H]. destruct g; cbn; auto. Qed.
Lemma confs_fixed e : forall gs cs cs', Forall2 (conf e) gs cs -> map c_fixed cs' = map c_fixed cs -> Forall2 (conf e) gs cs'.
Proof.
  induction gs as [|g gs IH]; intros cs cs' H E; inversion H; subst; destruct cs' as [|c' cs']; try discriminate; [constructor|]. cbn [map] in E.
  constructor; [unfold conf in *; congruence|eapply IH; [eassumption|congruence]].
Qed.
Lemma confs_build f : Forall2 (conf (f_err f)) (f_corrs f) (e_corrs (build f)).
Proof.
  rewrite build_eq. cbn [e_corrs e_set_corrs e_set]. induction (f_corrs f) as [|g gs IH]; cbn [map]; constructor; [|exact IH]. reflexivity.
Qed.
Lemma vel_applied_queue K c q m s s1 : vel_applied K (vc_set_queue c q) m s s1 <-> vel_applied K c m s s1.
Proof. reflexivity. Qed.
Lemma vel_reading e g c h s a b c' s1 tp t o : conf e (GVel g) (CVel c) -> core o h s -> vel_noise_ok c -> stprop s = Some tp -> st s = Some t -> vel_Correct c s (a_vel a) = Ok (b, c', s1) ->
  exists ft, readings_taken (GVel g) tp (CVel c) a ft (CVel c') /\ reading_applied e (GVel g) (CVel c) h s (f_used ft) (CVel c') h s1.
Proof.
  intros HF HC HN Ht Hs E. destruct HC as (ids & C & _). pose proof (contacts_wfp _ _ _ _ C) as W.
  pose proof (conf_obj _ _ _ HF) as (_ & _ & HO).
  destruct (vel_Correct_spec _ _ _ _ _ _ E) as (_ & f & F1 & _ & F3 & F4). destruct (F3 _ Ht) as [F5 F6].
  exists (lift_fate Datatypes.inl f). split; [split; [|split]|].
  - cbn [queued arriving]. rewrite consumed_lift, <- !map_app. f_equal. exact F1.
  - rewrite <- HO. cbn. apply Forall_map. exact F5.
  - rewrite <- HO. cbn. intros x Hx. destruct (f_used f) as [y|]; [|discriminate]. injection Hx as <-. apply F6. reflexivity.
  - cbn. destruct (f_used f) as [m|]; cbn.
    + split; [reflexivity|]. intros K WK. rewrite <- (conf_vel e g c HF). apply vel_applied_queue. unfold vel_applied. rewrite <- (vel_update_eq K) by auto. apply F4.
    + split; [reflexivity|apply F4].
Qed.
Lemma leg_reading e g c h s a b c' h1 s1 tp ids v : conf e (GLeg g) (CLeg c) -> tracks c h s ids -> stprop s = Some tp -> lc_contact_cov c = v *ms mid -> qn v s -> leg_Correct c h s (a_leg a) = Ok (b, c', h1, s1) ->
  (exists ft, readings_taken (GLeg g) tp (CLeg c) a ft (CLeg c') /\ reading_applied e (GLeg g) (CLeg c) h s (f_used ft) (CLeg c') h1 s1) /\ qn v s1.
Proof.
  intros HF T Ht HV HQ E. pose proof (conf_obj _ _ _ HF) as HO. cbn in HO.
  destruct (leg_Correct_spec _ _ _ _ _ _ _ _ E) as (f & F1 & _ & F3 & F4). destruct (F3 _ Ht) as [F5 F6].
  split; [exists (lift_fate Datatypes.inr f); split; [split; [|split]|]|].
  - cbn [queued arriving]. rewrite consumed_lift, <- !map_app. f_equal. exact F1.
  - cbn [cfg_thr] in *. rewrite <- HO. cbn. apply Forall_map. exact F5.
  - cbn [cfg_thr] in *. rewrite <- HO. cbn. intros x Hx. destruct (f_used f) as [y|]; [|discriminate]. injection Hx as <-. apply F6. reflexivity.
  - cbn. destruct (f_used f) as [m|]; cbn.
    + destruct F4 as (_ & q & F4 & _). destruct (leg_update_inv _ _ _ _ ids _ _ _ (tracks_queue c q h s ids T) F4) as (sk & ids' & m' & A1 & A2 & A3 & _).
      rewrite <- (conf_leg e g c HF). exists sk. split.
      * intros K WK. rewrite (wfp_unique K (2 + length ids) s WK (tr_wf _ _ _ _ T)). apply (corrected_queue _ _ q) in A2. apply (corrected_queue _ (lc_set_queue c []) (lc_queue c)). destruct c. exact A2.
      * apply booked_queue in A3. apply (booked_queue (lc_set_queue c []) (lc_queue c)). destruct c. exact A3.
    + destruct F4 as (_ & _ & -> & ->). auto.
  - destruct (f_used f) as [m|].
    + destruct F4 as (_ & q & F4 & _). eapply (leg_update_Q v (lc_set_queue c q)); [apply tracks_queue; exact T|exact HV|exact F4|exact HQ].
    + destruct F4 as (_ & _ & _ & ->). exact HQ.
Qed.
Lemma qn_meta v s s' : sQc s' = sQc s -> qn v s -> qn v s'.
Proof. unfold qn. intros ->. auto. Qed.
Lemma all_steps e v : forall cs gs ctx h s l b cs' h' s' tp t, (n_leg cs + n_ctx ctx <= 1)%nat -> Forall2 (conf e) gs cs -> Forall corr_noise cs ->
  core (pick ctx cs) h s -> stprop s = Some tp -> st s = Some t -> (forall c, In (CLeg c) cs -> lc_contact_cov c = v *ms mid) -> qn v s ->
  correct_all cs h s l = Ok (b, cs', h', s') -> corrected e tp gs cs l h s cs' h' s' /\ qn v s'.
Proof.
  induction cs as [|c cs IH]; intros gs ctx h s l b cs' h' s' tp t Hl HF HN HC Ht Hs HV HQ E; cbn [correct_all] in E.
  { inversion HF; subst. injection E as <- <- <- <-. split; [constructor|exact HQ]. }
  inversion HF as [|g c0 gs' cs0 HFc HFs]; subst. inversion HN as [|y z HNc HNs]; subst. destruct c as [c|c]; cbn [corr_Correct] in E.
  - destruct g as [g|g]; [|discriminate HFc].
    destruct (vel_step _ h c s (a_vel (hd_arr l)) tp t HC HNc Ht Hs) as (b1 & c1 & s1 & t1 & E1 & C1 & N1 & T1 & S1). rewrite E1 in E. cbn [bind] in E.
    destruct (correct_all cs h s1 (tl_arr l)) as [[[[b2 cs2] h2] s2]|] eqn:E2; [|discriminate]. cbn [bind] in E. injection E as <- <- <- <-.
    destruct (vel_reading e g c h s (hd_arr l) b1 c1 s1 tp t _ HFc HC HNc Ht Hs E1) as (ft & A1 & A2).
    assert (qn v s1) as HQ1.
    { destruct HC as (ids & C & _). destruct (vel_Correct_meta _ _ _ _ _ _ _ (contacts_wfp _ _ _ _ C) E1) as (_ & _ & Q). eapply qn_meta; [exact Q|exact HQ]. }
    destruct (IH gs' ctx h s1 (tl_arr l) b2 cs2 h2 s2 tp t1) as [B1 B2]; auto.
    { intros x Hx. apply HV. right. exact Hx. }
    split; [|exact B2]. eapply C_cons; eauto.
  - destruct g as [g|g]; [discriminate HFc|].
    assert (ctx = None /\ n_leg cs = 0%nat) as [-> L0].
    { unfold n_leg in Hl. cbn in Hl. destruct ctx; cbn in Hl; [lia|]. split; [reflexivity|]. unfold n_leg. lia. }
    cbn [pick leg_of] in HC.
    destruct (leg_step c h s (a_leg (hd_arr l)) tp t HC HNc Ht Hs) as (b1 & c1 & h1 & s1 & t1 & E1 & C1 & N1 & T1 & S1). rewrite E1 in E. cbn [bind] in E.
    destruct (correct_all cs h1 s1 (tl_arr l)) as [[[[b2 cs2] h2] s2]|] eqn:E2; [|discriminate]. cbn [bind] in E. injection E as <- <- <- <-.
    destruct HC as (ids & C & _). cbn in C.
    destruct (leg_reading e g c h s (hd_arr l) b1 c1 h1 s1 tp ids v HFc C Ht (HV c (or_introl eq_refl)) HQ E1) as [(ft & A1 & A2) HQ1].
    destruct (IH gs' (Some c1) h1 s1 (tl_arr l) b2 cs2 h2 s2 tp t1) as [B1 B2]; auto.
    { rewrite L0. cbn. lia. }
    { intros x Hx. apply HV. right. exact Hx. }
    split; [|exact B2]. eapply C_cons; eauto.
Qed.

(** ** the prediction *)
Definition ip_conf (f : config) (ip : imu_prop) : Prop := ip_fixed ip = ip_fixed (ImuPropagation [] (f_err f) (f_imu f)).
Lemma ent_scal_mid v i j : (i < 3)%nat -> (j < 3)%nat -> mget (v *ms mid) i j = if Nat.eqb i j then v else 0.
Proof. intros Hi Hj. destruct i as [|[|[|]]], j as [|[|[|]]]; try lia; cbn; ring. Qed.
Ltac dec1 := match goal with
  | |- context [(?a <=? ?b)%nat] => first [rewrite (proj2 (Nat.leb_le a b)) by lia | rewrite (proj2 (Nat.leb_gt a b)) by lia]
  | |- context [(?a <? ?b)%nat] => first [rewrite (proj2 (Nat.ltb_lt a b)) by lia | rewrite (proj2 (Nat.ltb_ge a b)) by lia]
  end.
Lemma Qfull_noise f K ip b : (2 <= K)%nat -> ip_conf f ip -> Qfull K ip (Qn (foot_drift f) K b) = process_noise f K b.
Proof.
  intros HK HC. unfold ip_conf in HC. destruct ip as [q e sc sz uo Rib g1 g2 g3 g4 bg ba en tr bi ve pv]. cbn in HC. injection HC as -> -> -> -> -> -> -> -> -> -> ->.
  apply mat_ext; [rewrite nr_Qfull; reflexivity|rewrite nc_Qfull; reflexivity|]. rewrite nr_Qfull, nc_Qfull. unfold Qn at 1 2. rewrite nr_mk, nc_mk. intros i j Hi Hj.
  unfold Qfull, process_noise. cbn [ip_enable ip_gyro_cov ip_accel_cov ip_gyro_bias_cov ip_accel_bias_cov]. rewrite (ent_mk (9 + 3 * K)) by auto. unfold noise_at. fold (bias_on f). rewrite !var_dflt.
  assert (forall P, nr P = (9 + 3 * K)%nat -> nc P = (9 + 3 * K)%nat -> forall a w, (a + 3 <= 9 + 3 * K)%nat ->
    ent (put P a a (ofM3 (w *ms mid))) i j = if inwin a 3 i && inwin a 3 j then (if Nat.eqb i j then w else 0) else ent P i j) as HPut.
  { intros P P1 P2 a w Ha. rewrite ent_put by (rewrite ?P1, ?P2; auto; mdim; lia). mdim. destruct (inwin a 3 i && inwin a 3 j) eqn:E; [|reflexivity].
    apply andb_true_iff in E. destruct E as [E1 E2]. apply inwin_true in E1, E2. rewrite ent_ofM3, ent_scal_mid by lia.
    destruct (Nat.eqb_spec (i - a) (j - a)), (Nat.eqb_spec i j); try lia; reflexivity. }
  assert (ent (Qn (foot_drift f) K b) i j = if Nat.eqb i j then (if (i <? 9)%nat then 0 else if (i <? 3 + 3 * K)%nat then (if b && (3 * K <=? i)%nat then foot_drift f else 0) else 0) else 0) as EQn.
  { unfold Qn. rewrite ent_mk by auto. destruct (Nat.eqb i j); [|reflexivity]. cbn [andb]. destruct (Nat.leb_spec 9 i), (Nat.ltb_spec i 9); try lia; cbn [andb]; [|reflexivity].
    destruct (Nat.ltb_spec i (3 + 3 * K)); [rewrite andb_true_r|rewrite andb_false_r]; reflexivity. }
  destruct (Nat.eq_dec i j) as [<-|Hne].
  - rewrite Nat.eqb_refl in *. destruct (bias_on f); rewrite !HPut by (mdim; unfold Qn; rewrite ?nr_mk, ?nc_mk; lia); rewrite EQn, !andb_diag; unfold inwin; clear HPut EQn.
    + destruct (le_lt_dec 3 i); [destruct (le_lt_dec 6 i); [destruct (le_lt_dec 9 i); [destruct (le_lt_dec (3 + 3 * K) i); [destruct (le_lt_dec (6 + 3 * K) i)|]|]|]|]; repeat dec1; cbn [andb]; try reflexivity.
    + destruct (le_lt_dec 3 i); [destruct (le_lt_dec 6 i); [destruct (le_lt_dec 9 i); [destruct (le_lt_dec (3 + 3 * K) i)|]|]|]; repeat dec1; cbn [andb]; try reflexivity.
  - rewrite (proj2 (Nat.eqb_neq i j)) in * by auto. destruct (bias_on f); rewrite !HPut by (mdim; unfold Qn; rewrite ?nr_mk, ?nc_mk; lia); rewrite EQn;
    repeat match goal with |- context [if ?c then 0 else _] => destruct c end; reflexivity.
Qed.
Lemma reset_mask K P : nr P = (9 + 3 * K)%nat -> nc P = (9 + 3 * K)%nat -> mask_diag (biasm K) 1 P = reset_bias K P.
Proof. intros H1 H2. unfold mask_diag, reset_bias, biasm. rewrite H1, H2. reflexivity. Qed.
Lemma pred_step f K ip m s t0 s1 b : wfp K s -> stprop s = Some t0 -> sQc s = Qn (foot_drift f) K b -> ip_conf f ip -> propagate_with ip m s = Ok s1 ->
  exists Phi, predicted f m s s1 K t0 b Phi.
Proof.
  intros W Ht HQ HC E. pose proof HC as HC'. unfold ip_conf in HC'.
  assert (ip_err ip = f_err f /\ ip_enable ip = bias_on f /\ ip_Rib ip = mounting f /\ ip_t ip = lever f) as (H1 & H2 & H3 & H4).
  { destruct ip as [q e sc sz uo Rib g1 g2 g3 g4 bg ba en tr bi ve pv]. cbn in HC'. injection HC' as -> -> -> -> -> -> -> -> -> -> ->. repeat split. }
  assert (rate ip m (gbias s) = body_rate f (gbias s) m) as Ew by (unfold rate, body_rate; rewrite H3; reflexivity).
  assert (accel ip m (gbias s) (abias s) = body_force f (gbias s) (abias s) m) as Ea by (unfold accel, body_force; rewrite Ew, H3, H4; reflexivity).
  pose proof (wp_K _ _ W) as HK. destruct (step_wfp K ip m s t0 s1 W Ht E) as (_ & S1 & S2 & S3 & S4 & S5 & S6 & S7 & S8 & S9).
  exists (Phi_of K (f_err f) (bias_on f) (sX s) (body_rate f (gbias s) m) (body_force f (gbias s) (abias s) m) (i_t m - t0)). split.
  - auto.
  - intros Rf vf pf w a dt HT HS R0 V0 P0. pose proof (thm_strapdown_unique K ip m s t0 s1 Rf vf pf W Ht E) as HU. cbv zeta in HU. rewrite Ew, Ea in HU. apply HU; auto.
  - auto.
  - intros ip0 I1 I2. rewrite (STM_ok K) by auto. rewrite I1, I2. reflexivity.
  - cbv zeta. pose proof (step_eq K ip m s t0 W Ht) as E2. cbv zeta in E2. rewrite E in E2. injection E2 as ->. cbn [sP]. rewrite Ew, Ea. unfold next_cov, prior_cov. rewrite H1, H2, HQ, Qfull_noise by auto.
    assert (NG K (f_err f) (sX s) = noise_map f K (sX s)) as ->.
    { unfold NG, noise_map. destruct (f_err f); [reflexivity|]. rewrite L2R_AdB. reflexivity. }
    destruct (bias_on f); [reflexivity|]. apply reset_mask; mdim.
Qed.

(** ** the estimator *)
Definition cfgd (f : config) (e : est) : Prop :=
  Forall2 (conf (f_err f)) (f_corrs f) (e_corrs e) /\ exists ip, e_prop e = Some ip /\ ip_conf f ip.
Lemma cfgd_build f : cfgd f (build f).
Proof. split; [apply confs_build|]. rewrite build_eq. eexists. split; reflexivity. Qed.
Lemma cfgd_step f e o e' : cfgd f e -> est_step e o = Ok e' -> cfgd f e'.
Proof.
  intros [H1 (ip & H2 & H3)] E. destruct (step_fixed _ _ _ E) as (_ & F1 & F2). split; [eapply confs_fixed; eauto|].
  rewrite H2 in F2. destruct (e_prop e') as [ip'|]; [|discriminate]. cbn [option_map] in F2. exists ip'. split; [reflexivity|]. unfold ip_conf in *. congruence.
Qed.
Lemma section_of gs : (length (filter is_leg gs) <= 1)%nat -> forall g, In (GLeg g) gs -> leg_section gs = Some g.
Proof.
  induction gs as [|[x|x] gs IH]; cbn; intros H g Hin; [contradiction| |].
  - destruct Hin as [Hin|Hin]; [discriminate|]. apply IH; auto.
  - destruct Hin as [[= ->]|Hin]; [reflexivity|]. exfalso.
    assert (In (GLeg g) (filter is_leg gs)) as Hi by (apply filter_In; auto). destruct (filter is_leg gs); [contradiction|cbn in H; lia].
Qed.
Lemma confs_in e : forall gs cs, Forall2 (conf e) gs cs -> forall c, In c cs -> exists g, In g gs /\ conf e g c.
Proof. induction 1 as [|g c gs cs H HF IH]; intros x Hx; [contradiction|]. destruct Hx as [<-|Hx]; [exists g; cbn; auto|]. destruct (IH x Hx) as (g' & A & B). exists g'. cbn; auto. Qed.
Lemma drift_of f cs : config_ok f -> Forall2 (conf (f_err f)) (f_corrs f) cs -> forall c, In (CLeg c) cs -> lc_contact_cov c = foot_drift f *ms mid.
Proof.
  intros (_ & _ & HC) HF c Hc. destruct (confs_in _ _ _ HF _ Hc) as (g & Hg & Hcf). destruct g as [g|g]; [discriminate Hcf|].
  unfold foot_drift. rewrite (section_of _ HC g Hg). pose proof (conf_leg _ _ _ Hcf) as E. apply (f_equal lc_contact_cov) in E. exact E.
Qed.
Definition Inv (f : config) (e : est) : Prop := cfgd f e /\ (e_enabled e = true -> qn (foot_drift f) (e_state e)).

Lemma run_once_step f fut e l e' : config_ok f -> est_ok fut e -> Inv f e -> e_enabled e = true -> RunOnce e l = Ok e' ->
  (exists s1 tp,
    (imu_queue e = [] -> s1 = e_state e) /\
    (imu_queue e <> [] -> exists ip m K t0 fresh Phi, e_prop e = Some ip /\ ip_prev ip = Some m /\ predicted f m (e_state e) s1 K t0 fresh Phi) /\
    stprop s1 = Some tp /\
    corrected (f_err f) tp (f_corrs f) (e_corrs e) l (e_heap e) s1 (e_corrs e') (e_heap e') (e_state e')) /\ qn (foot_drift f) (e_state e').
Proof.
  intros HC [(ip & Hip & HN & HCal & HS & HRun) Hno Hle Hsl Hcov Hon Hoff Hpub] [[HF (ip0 & Hip0 & HF0)] HQ] HA E. rewrite Hip in Hip0. injection Hip0 as <-.
  destruct (HRun HA) as (tp & t & m & R1 & R2 & R3 & R4). cbn [map nondec] in R4. destruct R4 as [R4 R5]. specialize (HQ HA). specialize (Hon HA).
  assert (imu_queue e = ip_queue ip) as EQ by (unfold imu_queue; rewrite Hip; reflexivity). rewrite EQ.
  unfold RunOnce in E. rewrite Hip in E. cbn [of_opt bind] in E.
  destruct (prop_step _ (e_heap e) ip (e_state e) tp m Hon R1 HN R3 R4) as (b & ip' & s1 & E1 & C1 & Hq). rewrite E1 in E. cbn [bind] in E.
  assert (exists tp1 t1, stprop s1 = Some tp1 /\ st s1 = Some t1) as (tp1 & t1 & T1 & T2).
  { destruct (ip_queue ip); [destruct Hq as (_ & _ & ->); eauto|destruct Hq as (_ & _ & ? & ?); eauto]. }
  assert (qn (foot_drift f) s1 /\ (ip_queue ip = [] -> s1 = e_state e) /\
    (ip_queue ip <> [] -> exists ip0 m K t0 fresh Phi, e_prop e = Some ip0 /\ ip_prev ip0 = Some m /\ predicted f m (e_state e) s1 K t0 fresh Phi)) as (HQ1 & P1 & P2).
  { destruct (ip_queue ip) as [|x q] eqn:Eq.
    - destruct Hq as (_ & _ & ->). split; [exact HQ|]. split; [auto|congruence].
    - unfold Propagate in E1. rewrite Eq, R3 in E1. cbn [of_opt bind] in E1.
      destruct (propagate_with (set_prev (set_queue ip q) x) m (e_state e)) as [s2|] eqn:E2; [|discriminate]. cbn [bind] in E1. injection E1 as <- <- ->.
      destruct HQ as (K & fr & HK & HQ). destruct Hon as (ids & Cn & _). pose proof (contacts_wfp _ _ _ _ Cn) as W.
      assert (K = 2 + length ids)%nat as ->. { destruct W as [_ _ _ HQd _]. rewrite HQ in HQd. unfold Qn in HQd. rewrite nr_mk in HQd. lia. }
      destruct (step_wfp _ _ _ _ _ _ W R1 E2) as (_ & _ & _ & _ & SQ & _).
      split; [exists (2 + length ids)%nat, fr; split; [lia|congruence]|]. split; [discriminate|]. intros _.
      destruct (pred_step f (2 + length ids) (set_prev (set_queue ip q) x) m (e_state e) tp s1 fr W R1 HQ HF0 E2) as (Phi & HPh).
      exists ip, m, (2 + length ids)%nat, tp, fr, Phi. auto. }
  destruct (correct_all (e_corrs e) (e_heap e) s1 l) as [[[[b2 cs'] h'] s']|] eqn:E2; [|discriminate]. cbn [bind] in E.
  destruct (all_steps (f_err f) (foot_drift f) (e_corrs e) (f_corrs f) None (e_heap e) s1 l b2 cs' h' s' tp1 t1) as [D1 D2]; auto.
  { cbn. lia. }
  { apply drift_of; auto. }
  rewrite Hsl in E. assert (e_corrs e' = cs' /\ e_heap e' = h' /\ e_state e' = s') as (-> & -> & ->).
  { destruct (b || b2); cbn [bind] in E; injection E as <-; auto. }
  split; [|exact D2]. exists s1, tp1. auto.
Qed.
Lemma inv_step f fut e o e' : config_ok f -> est_ok (op_imu o ++ fut) e -> allowed e o -> Inv f e -> est_step e o = Ok e' -> Inv f e'.
Proof.
  intros HC HE HA HI E. split; [eapply cfgd_step; [apply HI|exact E]|]. pose proof (enabled_step _ _ _ E) as ES. intros He'.
  destruct o; try (destruct ES as [-> Een]; apply HI; congruence); cbn [est_step op_imu app] in *.
  - (* InitState *) destruct HA as [He _].
    pose proof HE as [(ip & Hip & HN & HCal & HS & HRun) Hno Hle Hsl Hcov Hon Hoff Hpub]. destruct (Hoff He) as [B _].
    rewrite (InitState_eq e l ip Hip B) in E.
    2:{ intros m Hm. apply unit_rot. destruct (ip_queue ip) as [|x q]; [discriminate|]. injection Hm as ->. destruct HS as [HS _]. cbn in HS. inversion HS; auto. }
    destruct (ip_queue ip) as [|m q] eqn:Eq; [injection E as <-; cbn in He'; congruence|].
    assert (wfp 2 (init_state 2 ip m (e_state e))) as W0. { apply init_state_wfp; [apply blank_wfp; exact B|]. apply unit_rot. destruct HS as [HS _]. cbn in HS. inversion HS; auto. }
    destruct (spin_all (e_corrs e) (init_state 2 ip m (e_state e)) l) as [[cs s]|] eqn:Es; [|discriminate]. cbn [bind] in E. cbv zeta in E. injection E as <-.
    destruct (spin_all_ok 2 (i_w m) (e_corrs e) _ l W0 eq_refl) as (_ & H2 & _). destruct (H2 _ _ Es) as (_ & _ & _ & _ & _ & _ & _ & A7 & _).
    exists 2%nat, true. split; [lia|]. rewrite Qn2. cbn [e_state e_set]. unfold start_state. cbn. rewrite A7. cbn. apply (bl_Q _ B).
  - apply (run_once_step f fut e l e' HC HE HI HA E).
  - unfold Clear in E. destruct (e_prop e); [|discriminate]. cbn [of_opt bind e_logger e_set e_names e_count] in E. destruct (e_logger e); [destruct (e_names e)|]; injection E as <-; discriminate.
Qed.
Lemma inv_run f : config_ok f -> forall os e e', est_ok (imus os) e -> Inv f e -> protocol e os -> est_run e os = Ok e' -> Inv f e'.
Proof.
  intros HC. induction os as [|o os IH]; intros e e' HE HI HP E.
  { injection E as <-. exact HI. }
  rewrite imus_cons in HE. destruct HP as [HA HP]. cbn [est_run foldM] in E. destruct (est_step e o) as [e1|] eqn:E1; [|discriminate]. cbn [bind] in E.
  destruct (step_safe _ _ _ HE HA) as [(e2 & E2 & HE2)|[E2 _]]; [|congruence]. rewrite E1 in E2. injection E2 as <-.
  apply (IH e1 e'); auto. eapply inv_step; eauto.
Qed.
Lemma thm_iteration f os e l e' : reachable f os e -> e_enabled e = true -> est_step e (ORunOnce l) = Ok e' ->
  exists s1 tp,
    (imu_queue e = [] -> s1 = e_state e) /\
    (imu_queue e <> [] -> exists ip m K t0 fresh Phi, e_prop e = Some ip /\ ip_prev ip = Some m /\ predicted f m (e_state e) s1 K t0 fresh Phi) /\
    stprop s1 = Some tp /\
    corrected (f_err f) tp (f_corrs f) (e_corrs e) l (e_heap e) s1 (e_corrs e') (e_heap e') (e_state e').
Proof.
  intros HR HA E. pose proof (reach_ok _ _ _ HR) as HE. destruct HR as (HC & HS & HP & HR).
  assert (Inv f e) as HI.
  { eapply (inv_run f HC os (build f)); [apply build_ok; auto| |exact HP|exact HR]. split; [apply cfgd_build|]. rewrite build_eq. discriminate. }
  apply (run_once_step f [] e l e' HC HE HI HA E).
Qed.
