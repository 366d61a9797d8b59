(** Proofs: perfect sensors keep the estimate on the true trajectory (C78), one step. *)
From Coq Require Import Reals ZArith List Bool Arith Lia Lra.
From Verif Require Import Res Vec3 Mat MatInv Psd Spec LieGroup LieSO3 LieSEK RobotState StateProofs StateHist Inekf SpecFilter InekfProofs InekfThms Blk Imu Propagation SpecProp
  PropagationProofs PropagationThms PropagationExact PropagationUniq ImuRest ImuThms ImuNeg Queue VelCorr LegCorr SpecCorr VelThms PsdBlk LegThms LegAdd LegLoop LegUpd LegHist Estimator SpecEst EstInv EstSafe EstPub EstHist EstTime SpecTrack.
Import ListNotations.
Local Open Scope R_scope.

Lemma pose_eq s s' : rot (sX s') = rot (sX s) -> col (sX s') 0 = col (sX s) 0 -> col (sX s') 1 = col (sX s) 1 -> pose_of s' = pose_of s.
Proof. unfold pose_of. intros -> -> ->. reflexivity. Qed.
Lemma vs0 v : 0 *s v = vzero. Proof. ring3. Qed.
Lemma vadd0 v : v +v vzero = v. Proof. ring3. Qed.
Lemma vsub_diag v : v -v v = vzero. Proof. ring3. Qed.

(** ** propagation *)
Lemma prop_zero K ip m s tp s' : wfp K s -> stprop s = Some tp -> propagate_with ip m s = Ok s' -> i_t m = tp -> pose_of s' = pose_of s.
Proof.
  intros W Ht E Hm. rewrite (step_eq K ip m s tp W Ht) in E. injection E as <-. pose proof (wp_K _ _ W) as HK.
  replace (i_t m - tp) with 0 by lra. unfold pose_of. cbn [sX]. unfold stepX. rewrite rot_aff, !col_aff by lia. rewrite vs0, expSO3_0, mmul_id_r.
  replace (0 * 0) with 0 by ring. rewrite !vs0, !vadd0. reflexivity.
Qed.
Lemma prop_track f T bg ba K ip m s tp s' : wfp K s -> stprop s = Some tp -> propagate_with ip m s = Ok s' ->
  ip_Rib ip = mounting f -> ip_t ip = lever f -> gbias s = bg -> abias s = ba -> pose_of s = T tp -> (tp = i_t m \/ imu_exact f bg ba T tp m) ->
  pose_of s' = T (i_t m) /\ gbias s' = bg /\ abias s' = ba.
Proof.
  intros W Ht E HR HL Hg Ha HX HT. destruct (step_wfp _ _ _ _ _ _ W Ht E) as (_ & _ & _ & TH & _).
  split; [|unfold gbias, abias in *; rewrite TH; auto].
  destruct (Req_dec (i_t m) tp) as [Eq|Ne]; [rewrite (prop_zero K ip m s tp s'), Eq; auto|].
  destruct HT as [->|[HD HTol]]; [congruence|]. destruct HD as (Rf & vf & pf & HS & X0 & X1).
  assert (rate ip m (gbias s) = body_rate f bg m) as Ew by (unfold rate, body_rate; rewrite HR, Hg; reflexivity).
  assert (accel ip m (gbias s) (abias s) = body_force f bg ba m) as Ea by (unfold accel, body_force; rewrite Ew, HR, HL, Ha; reflexivity).
  pose proof (thm_strapdown_unique K ip m s tp s' Rf vf pf W Ht E) as HU. cbv zeta in HU. rewrite Ew, Ea in HU.
  rewrite X1. unfold pose_of in *. rewrite X0 in HX.
  assert (rot (sX s) = Rf 0 /\ col (sX s) 0 = vf 0 /\ col (sX s) 1 = pf 0) as (A1 & A2 & A3) by (split; [|split]; congruence).
  destruct HU as (B1 & B2 & B3); auto.
  - destruct HTol as [H|[H|H]]; auto. congruence.
  - rewrite B1, B2, B3. reflexivity.
Qed.

(** ** velocity *)
Lemma vel_track K c m s s' x : wfp K s -> vel_update c m s = Ok s' -> pose_of s = x -> vc_R c *v (vc_scale c *s vm_v m) = mtr (po_R x) *v po_v x ->
  sX s' = sX s /\ sTheta s' = sTheta s.
Proof.
  intros W E HX HV. rewrite (vel_update_eq K) in E by auto. pose proof W as [W0 HK Hty HQ1 HQ2].
  assert (wf K (set_time s (vm_t m))) as W' by (destruct W0; split; auto).
  assert (vel_innovation s (vc_R c *v (vc_scale c *s vm_v m)) = mO 3 1) as E0.
  { rewrite HV, <- HX. unfold vel_innovation, pose_of. cbn [po_R po_v]. rewrite SO3_rv by (apply W0). rewrite vsub_diag. apply mat_ext; [reflexivity|reflexivity|]. intros i j Hi Hj. rewrite ent_O. unfold ofV3. rewrite ent_mk_if. destruct (inr _ _ _ _); [|reflexivity]. destruct i as [|[|[|]]]; reflexivity. }
  rewrite E0 in E. change (sX s) with (sX (set_time s (vm_t m))). change (sTheta s) with (sTheta (set_time s (vm_t m))).
  eapply (thm_zero_innovation K 3 (vel_H K) (vel_N s (vc_cov c)) (set_time s (vm_t m)) (mkCorr true (mO 3 1) (vel_H K) (vel_N s (vc_cov c)) (vc_err c))); auto.
  rewrite <- E0. apply vel_measurement.
Qed.

(** ** which reading was used *)
Lemma newest_snoc {A} (l : list A) x : newest (l ++ [x]) = Some x.
Proof. unfold newest. rewrite rev_app_distr. reflexivity. Qed.
Lemma newest_in {A} (l : list A) x : newest l = Some x -> In x l.
Proof. unfold newest. intros H. apply in_rev. destruct (rev l); [discriminate|]. injection H as ->. left. reflexivity. Qed.
Lemma firstn_diff {A} (a b : list A) : firstn (length (a ++ b) - length b) (a ++ b) = a.
Proof. rewrite app_length. replace (length a + length b - length b)%nat with (length a) by lia. rewrite firstn_app, Nat.sub_diag, firstn_O, app_nil_r. apply firstn_all. Qed.
Lemma used_of_fate thr tp f q q' : q = consumed f ++ q' -> Forall (fun x => stale thr tp (r_time x)) (f_dropped f) ->
  (forall x, f_used f = Some x -> ~ stale thr tp (r_time x)) -> used_of thr tp q q' = f_used f.
Proof.
  intros -> HD HU. unfold used_of. rewrite firstn_diff. unfold consumed. destruct (f_used f) as [x|].
  - rewrite newest_snoc. specialize (HU x eq_refl). unfold stale in HU. destruct (Rle_dec _ _); [reflexivity|lra].
  - rewrite app_nil_r. destruct (newest (f_dropped f)) as [x|] eqn:E; [|reflexivity]. apply newest_in in E. rewrite Forall_forall in HD. specialize (HD x E). unfold stale in HD.
    destruct (Rle_dec _ _); [lra|reflexivity].
Qed.

(** ** settings *)
Definition obj_of (g : corr_cfg) (c : corr_obj) : Prop :=
  match g, c with
  | GVel g, CVel c => vc_R c = toRotationMatrix (dflt (g_quat g) (mkQ 1 0 0 0)) /\ vc_scale c = dflt (g_scale g) 1 /\ vc_thr c = cfg_thr (GVel g)
  | GLeg g, CLeg c => lc_thr c = cfg_thr (GLeg g)
  | _, _ => False
  end.
Lemma obj_fixed g c c' : obj_of g c -> c_fixed c' = c_fixed c -> obj_of g c'.
Proof. destruct g, c, c'; cbn; try tauto; try discriminate; intros H E; injection E; intros; subst; try congruence; try exact H; destruct H as (A & B & C); repeat split; congruence. Qed.
Lemma objs_fixed : forall gs cs cs', Forall2 obj_of gs cs -> map c_fixed cs' = map c_fixed cs -> Forall2 obj_of gs cs'.
Proof.
  induction gs as [|g gs IH]; intros cs cs' H E; inversion H; subst; destruct cs' as [|c' cs']; try discriminate; [constructor|]. cbn [map] in E.
  constructor; [eapply obj_fixed; [eassumption|congruence]|eapply IH; [eassumption|congruence]].
Qed.
Lemma objs_build f : Forall2 obj_of (f_corrs f) (e_corrs (build f)).
Proof.
  rewrite build_eq. cbn [e_corrs e_set_corrs e_set]. induction (f_corrs f) as [|g gs IH]; cbn [map]; constructor; [|exact IH]. destruct g; cbn; auto.
Qed.
Lemma objs_kind : forall gs cs, Forall2 obj_of gs cs -> forall i g, nth_error gs i = Some g -> exists c, nth_error cs i = Some c /\ obj_of g c.
Proof. induction 1 as [|g c gs cs H HF IH]; intros [|i] g0 Hg; try discriminate; cbn in *; [injection Hg as <-; eauto|eauto]. Qed.

(** ** what a correction uses *)
Definition took (g : corr_cfg) (tp : R) (c : corr_obj) (a : arrivals) (c' : corr_obj) : option reading :=
  used_of (cfg_thr g) tp (queued c ++ arriving c a) (queued c').
Lemma vel_took g c s a b c' s' tp : obj_of (GVel g) (CVel c) -> stprop s = Some tp -> vel_Correct c s (a_vel a) = Ok (b, c', s') ->
  match took (GVel g) tp (CVel c) a (CVel c') with None => s' = s | Some (Datatypes.inl m) => vel_update c m s = Ok s' | _ => False end.
Proof.
  intros (_ & _ & HO) Ht E. destruct (vel_Correct_spec _ _ _ _ _ _ E) as (_ & f & F1 & _ & F3 & F4). destruct (F3 _ Ht) as [F5 F6].
  unfold took. rewrite (used_of_fate (cfg_thr (GVel g)) tp (lift_fate Datatypes.inl f)).
  - cbn. destruct (f_used f); cbn; [apply F4|apply F4].
  - cbn [queued arriving]. rewrite consumed_lift, <- !map_app. f_equal. exact F1.
  - rewrite <- HO. cbn. apply Forall_map. exact F5.
  - rewrite <- HO. cbn. intros x Hx. destruct (f_used f) as [y|]; [|discriminate]. injection Hx as <-. apply F6. reflexivity.
Qed.
Lemma leg_took g c h s a b c' h' s' tp : obj_of (GLeg g) (CLeg c) -> stprop s = Some tp -> leg_Correct c h s (a_leg a) = Ok (b, c', h', s') ->
  match took (GLeg g) tp (CLeg c) a (CLeg c') with
  | None => s' = s /\ h' = h /\ c' = lc_set_queue c (lc_queue c')
  | Some (Datatypes.inr m) => exists q, leg_update (lc_set_queue c q) h m s = Ok (c', h', s')
  | _ => False end.
Proof.
  intros HO Ht E. destruct (leg_Correct_spec _ _ _ _ _ _ _ _ E) as (f & F1 & _ & F3 & F4). destruct (F3 _ Ht) as [F5 F6]. cbn in HO.
  unfold took. rewrite (used_of_fate (cfg_thr (GLeg g)) tp (lift_fate Datatypes.inr f)).
  - cbn. destruct (f_used f); cbn; [|tauto]. destruct F4 as (_ & q & F4 & _). eauto.
  - cbn [queued arriving]. rewrite consumed_lift, <- !map_app. f_equal. exact F1.
  - cbn [cfg_thr] in *. rewrite <- HO. cbn. apply Forall_map. exact F5.
  - cbn [cfg_thr] in *. rewrite <- HO. cbn. intros x Hx. destruct (f_used f) as [y|]; [|discriminate]. injection Hx as <-. apply F6. reflexivity.
Qed.

(** ** legs *)
Lemma ppos_X c h s s' id : sX s' = sX s -> ppos c h s' id = ppos c h s id.
Proof. unfold ppos. intros ->. reflexivity. Qed.
Lemma ppos_queue c q h s id : ppos (lc_set_queue c q) h s id = ppos c h s id.
Proof. reflexivity. Qed.
Lemma ppos_tracked c h s ids id : tracks c h s ids -> tracked c id <-> ppos c h s id <> None.
Proof.
  intros T. unfold tracked, ppos. destruct (lc_map c id) as [a|] eqn:Ea.
  - destruct (tracks_contact _ _ _ _ _ _ T Ea) as (E1 & _). rewrite E1. cbn. split; intros; discriminate.
  - unfold contact_of. rewrite Ea. cbn. tauto.
Qed.
Lemma leg_track c h m s ids c' h' s' x st : tracks c h s ids -> leg_update c h m s = Ok (c', h', s') -> pose_of s = x ->
  (forall id, ppos c h s id = st id) -> (forall id w w', st id = Some w -> stand x m st id = Some w' -> w' = w) ->
  pose_of s' = x /\ sTheta s' = sTheta s /\ forall id, ppos c' h' s' id = stand x m st id.
Proof.
  intros T E HX HP HW. destruct (leg_update_inv _ _ _ _ _ _ _ _ T E) as (s1 & ids' & m' & A1 & A2 & [B1 B2 B3 B4 B5 B6] & A4 & A5 & _).
  assert (consistent c h s m) as HC.
  { intros id o y Eo Ec Ey. rewrite HP in Ey. symmetry. rewrite <- HX in HW. apply (HW id y); [exact Ey|]. unfold stand. rewrite Eo, Ec. reflexivity. }
  destruct (thm_consistent _ _ _ _ _ _ (tr_wf _ _ _ _ T) HC A2) as [X1 Th1].
  destruct B4 as (C1 & C2 & C3 & C4).
  assert (pose_of s' = x) as HX'. { rewrite <- HX. apply pose_eq; [rewrite C1, X1|rewrite C2, X1|rewrite C3, X1]; reflexivity. }
  split; [exact HX'|]. split; [congruence|]. intros id. pose proof (B1 id) as Bid. rewrite (ppos_tracked _ _ _ _ id A4) in Bid. unfold tracked_after in Bid.
  assert (forall y, st id = Some y -> tracked c id) as Htr. { intros y Hy. apply (ppos_tracked _ _ _ _ id T). rewrite HP, Hy. discriminate. }
  assert (tracked c id -> tracked c' id -> ppos c' h' s' id = st id) as HK.
  { intros H1 H2. destruct B2 as [B2 _]. rewrite B2 by auto. rewrite (ppos_X _ _ s s1) by auto. apply HP. }
  assert (tracked c' id <-> ppos c' h' s' id <> None) as Htr' by (eapply ppos_tracked; eauto).
  unfold stand. destruct (nth_error (lm_legs m) id) as [o|] eqn:Eo.
  - destruct (lo_contact o) eqn:Ec.
    + destruct (st id) as [w|] eqn:Es.
      * rewrite HK; [|eapply Htr; eauto|apply Htr', Bid; reflexivity]. f_equal. symmetry. apply (HW id w); [exact Es|]. unfold stand. rewrite Eo, Ec. reflexivity.
      * destruct (B3 id o Eo Ec) as (B3' & _). { rewrite (ppos_tracked _ _ _ _ id T), HP, Es. tauto. }
        rewrite B3'. rewrite <- HX'. reflexivity.
    + destruct (ppos c' h' s' id); [|reflexivity]. assert (Some v <> None) as H by discriminate. apply Bid in H. discriminate.
  - destruct (st id) as [w|] eqn:Es.
    + assert (tracked c id) as Ht by (eapply Htr; eauto). apply HK; [exact Ht|]. apply Htr', Bid. exact Ht.
    + destruct (ppos c' h' s' id); [|reflexivity]. assert (Some v <> None) as H by discriminate. apply Bid in H. apply (ppos_tracked _ _ _ _ id T) in H. rewrite HP, Es in H. tauto.
Qed.

(** ** all corrections of one call *)
Lemma vels_track tp x st0 : forall cs gs h s l b cs' h' s' o, n_leg cs = 0%nat -> Forall2 obj_of gs cs -> Forall corr_noise cs -> core o h s -> stprop s = Some tp -> (exists t, st s = Some t) ->
  correct_all cs h s l = Ok (b, cs', h', s') -> pose_of s = x ->
  (forall i g c c' r, nth_error gs i = Some g -> nth_error cs i = Some c -> nth_error cs' i = Some c' -> took g tp c (nth i l no_arr) c' = Some r -> reading_exact g x st0 r) ->
  sX s' = sX s /\ sTheta s' = sTheta s /\ h' = h.
Proof.
  induction cs as [|c cs IH]; intros gs h s l b cs' h' s' o Hl HO HN HC Ht (t & Hs) E HX HR; cbn [correct_all] in E.
  { injection E as <- <- <- <-. auto. }
  inversion HO as [|g c0 gs' cs0 HOc HOs]; subst. inversion HN as [|y z HNc HNs]; subst. destruct c as [c|c]; [|unfold n_leg in Hl; cbn in Hl; discriminate]. destruct g as [g|g]; [|contradiction].
  cbn [corr_Correct] in E. destruct (vel_step _ h c s (a_vel (hd_arr l)) tp t HC HNc Ht Hs) as (b1 & c1 & s1 & t1 & E1 & C1 & N1 & T1 & S1). rewrite E1 in E. cbn [bind] in E.
  destruct (correct_all cs h s1 (tl_arr l)) as [[[[b2 cs2] h2] s2]|] eqn:E2; [|discriminate]. cbn [bind] in E. injection E as <- <- <- <-.
  assert (sX s1 = sX s /\ sTheta s1 = sTheta s) as [X1 Th1].
  { pose proof (vel_took g c s (hd_arr l) b1 c1 s1 tp HOc Ht E1) as HU. pose proof (HR O (GVel g) (CVel c) (CVel c1)) as HR0. cbn [nth_error] in HR0.
    replace (nth 0 l no_arr) with (hd_arr l) in HR0 by (destruct l; reflexivity).
    destruct (took (GVel g) tp (CVel c) (hd_arr l) (CVel c1)) as [[m|m]|]; [|contradiction|subst; auto].
    specialize (HR0 _ eq_refl eq_refl eq_refl eq_refl). cbn [reading_exact] in HR0. destruct HC as (ids & C & _). destruct HOc as (O1 & O2 & _).
    eapply (vel_track _ c m s s1); [eapply contacts_wfp; exact C|exact HU|reflexivity|]. rewrite O1, O2. exact HR0. }
  destruct (IH gs' h s1 (tl_arr l) b2 cs2 h2 s2 o) as (X2 & Th2 & H2); auto.
  - eauto.
  - apply pose_eq; rewrite X1; reflexivity.
  - intros i g0 c0 c' r G1 G2 G3 G4. apply (HR (S i) g0 c0 c' r); auto. replace (nth (S i) l no_arr) with (nth i (tl_arr l) no_arr) by (destruct l; [destruct i|]; reflexivity).
    exact G4.
  - repeat split; congruence.
Qed.
Lemma nth_tl_arr i l : nth (S i) l no_arr = nth i (tl_arr l) no_arr.
Proof. destruct l; [destruct i|]; reflexivity. Qed.
(** the leg reading used by a call *)
Definition leg_used (tp : R) (gs : list corr_cfg) (cs : list corr_obj) (l : list arrivals) (cs' : list corr_obj) (m : lmeas) : Prop :=
  exists i g c c', nth_error gs i = Some (GLeg g) /\ nth_error cs i = Some c /\ nth_error cs' i = Some c' /\ took (GLeg g) tp c (nth i l no_arr) c' = Some (Datatypes.inr m).
Lemma correct_track tp x st : forall cs gs h s l b cs' h' s', (n_leg cs <= 1)%nat -> Forall2 obj_of gs cs -> Forall corr_noise cs -> core (leg_of cs) h s -> stprop s = Some tp -> (exists t, pose_of s = x /\ RobotState.st s = Some t) ->
  correct_all cs h s l = Ok (b, cs', h', s') ->
  (forall i g c c' r, nth_error gs i = Some g -> nth_error cs i = Some c -> nth_error cs' i = Some c' -> took g tp c (nth i l no_arr) c' = Some r -> reading_exact g x st r) ->
  (forall c id, leg_of cs = Some c -> ppos c h s id = st id) ->
  pose_of s' = x /\ sTheta s' = sTheta s /\ exists st',
    (forall c id, leg_of cs' = Some c -> ppos c h' s' id = st' id) /\
    (forall m, leg_used tp gs cs l cs' m -> st' = stand x m st) /\ ((forall m, ~ leg_used tp gs cs l cs' m) -> st' = st).
Proof.
  induction cs as [|c cs IH]; intros gs h s l b cs' h' s' Hl HO HN HC Ht (t & HX & Hs) E HR HP; cbn [correct_all] in E.
  { injection E as <- <- <- <-. split; [exact HX|]. split; [reflexivity|]. exists st. split; [intros; discriminate|]. split; [|auto]. intros m (i & g & c & c' & _ & G & _). destruct i; discriminate. }
  inversion HO as [|g c0 gs' cs0 HOc HOs]; subst. inversion HN as [|y z HNc HNs]; subst. destruct c as [c|c]; cbn [corr_Correct leg_of] in *.
  - destruct g as [g|g]; [|contradiction].
    destruct (vel_step _ h c s (a_vel (hd_arr l)) tp t HC HNc Ht Hs) as (b1 & c1 & s1 & t1 & E1 & C1 & N1 & T1 & S1). rewrite E1 in E. cbn [bind] in E.
    destruct (correct_all cs h s1 (tl_arr l)) as [[[[b2 cs2] h2] s2]|] eqn:E2; [|discriminate]. cbn [bind] in E. injection E as <- <- <- <-.
    assert (sX s1 = sX s /\ sTheta s1 = sTheta s) as [X1 Th1].
    { pose proof (vel_took g c s (hd_arr l) b1 c1 s1 tp HOc Ht E1) as HU. pose proof (HR O (GVel g) (CVel c) (CVel c1)) as HR0. cbn [nth_error] in HR0.
      replace (nth 0 l no_arr) with (hd_arr l) in HR0 by (destruct l; reflexivity).
      destruct (took (GVel g) tp (CVel c) (hd_arr l) (CVel c1)) as [[m|m]|]; [|contradiction|subst; auto].
      specialize (HR0 _ eq_refl eq_refl eq_refl eq_refl). cbn [reading_exact] in HR0. destruct HC as (ids & C & _). destruct HOc as (O1 & O2 & _).
      eapply (vel_track _ c m s s1); [eapply contacts_wfp; exact C|exact HU|reflexivity|]. rewrite O1, O2. exact HR0. }
    assert (pose_of s1 = pose_of s) as X1' by (apply pose_eq; rewrite X1; reflexivity).
    destruct (IH gs' h s1 (tl_arr l) b2 cs2 h2 s2) as (A1 & A2 & st' & A3 & A4 & A5); auto.
    + eauto.
    + intros i g0 c0 c' r G1 G2 G3 G4. apply (HR (S i) g0 c0 c' r); auto. rewrite nth_tl_arr. exact G4.
    + intros c0 id G. rewrite (ppos_X _ _ s s1) by auto. auto.
    + split; [exact A1|]. split; [congruence|]. exists st'. split; [exact A3|].
      assert (forall m, leg_used tp (GVel g :: gs') (CVel c :: cs) l (CVel c1 :: cs2) m <-> leg_used tp gs' cs (tl_arr l) cs2 m) as HLU.
      { intros m. split; intros (i & g0 & c0 & c' & G1 & G2 & G3 & G4).
        - destruct i as [|i]; [discriminate|]. exists i, g0, c0, c'. rewrite nth_tl_arr in G4. auto.
        - exists (S i), g0, c0, c'. rewrite nth_tl_arr. auto. }
      split; [intros m Hm; apply A4, HLU, Hm|]. intros Hm. apply A5. intros m H. apply (Hm m), HLU, H.
  - destruct g as [g|g]; [contradiction|]. assert (n_leg cs = 0%nat) as L0. { unfold n_leg in *. cbn in Hl. lia. }
    destruct (leg_step c h s (a_leg (hd_arr l)) tp t HC HNc Ht Hs) as (b1 & c1 & h1 & s1 & t1 & E1 & C1 & N1 & T1 & S1). rewrite E1 in E. cbn [bind] in E.
    destruct (correct_all cs h1 s1 (tl_arr l)) as [[[[b2 cs2] h2] s2]|] eqn:E2; [|discriminate]. cbn [bind] in E. injection E as <- <- <- <-.
    pose proof (leg_took g c h s (hd_arr l) b1 c1 h1 s1 tp HOc Ht E1) as HU. pose proof (HR O (GLeg g) (CLeg c) (CLeg c1)) as HR0. cbn [nth_error] in HR0.
    replace (nth 0 l no_arr) with (hd_arr l) in HR0 by (destruct l; reflexivity).
    set (st1 := match took (GLeg g) tp (CLeg c) (hd_arr l) (CLeg c1) with Some (Datatypes.inr m) => stand (pose_of s) m st | _ => st end).
    assert (pose_of s1 = pose_of s /\ sTheta s1 = sTheta s /\ forall id, ppos c1 h1 s1 id = st1 id) as (X1 & Th1 & P1).
    { unfold st1. destruct (took (GLeg g) tp (CLeg c) (hd_arr l) (CLeg c1)) as [[m|m]|]; [contradiction| |].
      - specialize (HR0 _ eq_refl eq_refl eq_refl eq_refl). cbn [reading_exact] in HR0. destruct HU as (q & HU). destruct HC as (ids & C & _). cbn in C.
        eapply (leg_track (lc_set_queue c q) h m s ids); [apply tracks_queue; exact C|exact HU|reflexivity| |exact HR0]. intros id. rewrite ppos_queue. auto.
      - destruct HU as (-> & -> & HU). split; [reflexivity|]. split; [reflexivity|]. intros id. rewrite HU, ppos_queue. auto. }
    assert (forall m, leg_used tp (GLeg g :: gs') (CLeg c :: cs) l (CLeg c1 :: cs2) m <-> took (GLeg g) tp (CLeg c) (hd_arr l) (CLeg c1) = Some (Datatypes.inr m)) as HLU.
    { intros m. split.
      - intros (i & g0 & c0 & c' & G1 & G2 & G3 & G4). destruct i as [|i].
        + cbn in G1, G2, G3. injection G1 as <-. injection G2 as <-. injection G3 as <-. replace (hd_arr l) with (nth 0 l no_arr) by (destruct l; reflexivity). exact G4.
        + exfalso. cbn in G1, G2. clear -HOs L0 G1 G2. revert i gs' HOs G1 G2. induction cs as [|c cs IH]; intros i gs' HO G1 G2; inversion HO; subst; [destruct i; discriminate|].
          destruct i as [|i]; cbn in G1, G2.
          * injection G1 as ->. injection G2 as ->. destruct c0 as [c0|c0]; [contradiction|]. unfold n_leg in L0. cbn in L0. discriminate.
          * eapply (IH ltac:(unfold n_leg in *; cbn in L0; destruct c; [exact L0|discriminate])); eauto.
      - intros G. exists O, g, (CLeg c), (CLeg c1). replace (nth 0 l no_arr) with (hd_arr l) by (destruct l; reflexivity). auto. }
    destruct (vels_track tp (pose_of s) st cs gs' h1 s1 (tl_arr l) b2 cs2 h2 s2 (Some c1)) as (X2 & Th2 & ->); auto.
    + eauto.
    + intros i g0 c0 c' r G1 G2 G3 G4. apply (HR (S i) g0 c0 c' r); auto. rewrite nth_tl_arr. exact G4.
    + split; [rewrite <- X1; apply pose_eq; rewrite X2; reflexivity|]. split; [congruence|]. exists st1. split; [|split].
      * intros c0 id [= <-]. rewrite (ppos_X _ _ s1 s2) by auto. apply P1.
      * intros m Hm. apply HLU in Hm. unfold st1. rewrite Hm. reflexivity.
      * intros Hm. unfold st1. destruct (took (GLeg g) tp (CLeg c) (hd_arr l) (CLeg c1)) as [[m|m]|] eqn:Et; auto. exfalso. apply (Hm m), HLU. reflexivity.
Qed.
