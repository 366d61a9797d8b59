(** Proofs about LeggedKinematicsCorrection: calls and histories (C23-C25). *)
From Coq Require Import Reals ZArith List Bool Lia Lra.
From Verif Require Import Res Vec3 Mat LieGroup MatInv Psd Spec SpecState LieSO3 LieSEK LieThms RobotState StateProofs StateHist StateMisc Inekf SpecFilter
  InekfProofs InekfThms Imu Propagation SpecProp Blk PsdBlk PropagationProofs PropagationThms Queue VelCorr LegCorr SpecCorr ImuNeg VelThms LegThms LegAdd LegLoop LegUpd.
Import ListNotations.
Local Open Scope R_scope.

(** one call *)
Lemma leg_Correct_spec c h s sched b c' h' s' : leg_Correct c h s sched = Ok (b, c', h', s') ->
  exists f, lc_queue c ++ concat sched = consumed f ++ lc_queue c' /\
  (forall m, In m (consumed f) -> exists tp, stprop s = Some tp) /\
  (forall tp, stprop s = Some tp ->
     Forall (fun m => stale (lc_thr c) tp (lm_t m)) (f_dropped f) /\
     (forall m, f_used f = Some m -> ~ stale (lc_thr c) tp (lm_t m))) /\
  match f_used f with
  | None => b = false /\ c' = lc_set_queue c (lc_queue c') /\ h' = h /\ s' = s
  | Some m => b = true /\ exists q, leg_update (lc_set_queue c q) h m s = Ok (c', h', s') /\ lc_queue c' = q
  end.
Proof.
  assert (forall c h m s c' h' s', leg_update c h m s = Ok (c', h', s') -> lc_queue c' = lc_queue c) as HQ.
  { clear. intros c h m s c' h' s' E. unfold leg_update in E. apply bind_inv in E. destruct E as ([[[[H N] Z] rem] new] & _ & E).
    apply bind_inv in E. destruct E as (s1 & _ & E). apply bind_inv in E. destruct E as ([[h1 s2] mp] & _ & E).
    apply bind_inv in E. destruct E as ([[[h2 s3] mp2] P] & _ & E). injection E as <- <- <-. reflexivity. }
  unfold leg_Correct. rewrite <- (hd_tl_concat sched), app_assoc. destruct (lc_queue c ++ hd_batch sched) as [|m q] eqn:Eq.
  - intros [= <- <- <- <-]. exists (mkFate [] None). cbn. repeat split; auto; [tauto|discriminate].
  - destruct (get_propagate_time s) as [tp|] eqn:Et; cbn [bind]; [|discriminate].
    unfold get_propagate_time in Et. destruct (stprop s) as [tp'|] eqn:Ep; [|discriminate]. injection Et as ->.
    destruct (too_old (lc_thr c) tp (lm_t m)) eqn:Eo.
    + destruct (drain _ q (tl_batch sched)) as [[r q1] bs] eqn:Ed.
      destruct (drain_spec _ _ _ _ _ _ Ed) as (d & E1 & E2 & E3).
      assert (Forall (fun m => stale (lc_thr c) tp (lm_t m)) (m :: d)) as HF.
      { constructor; [apply too_old_true; auto|]. eapply Forall_impl; [|exact E2]. cbn. intros a. apply too_old_true. }
      destruct r as [m1|]; intros E.
      * apply bind_inv in E. destruct E as ([[c1 h1] s1] & E4 & E5). injection E5 as <- <- <- <-. 
        exists (mkFate (m :: d) (Some m1)). cbn. rewrite E1. pose proof (HQ _ _ _ _ _ _ _ E4) as E6. cbn in E6. split; [rewrite E6, <- !app_assoc; reflexivity|].
        split; [eauto|]. split; [|eauto]. intros tp0 [= <-]. split; [auto|]. intros ? [= <-]. apply too_old_false, E3; auto.
      * injection E as <- <- <- <-.
        exists (mkFate (m :: d) None). cbn. rewrite E1. split; [rewrite <- !app_assoc; reflexivity|].
        split; [eauto|]. split; [|auto]. intros tp0 [= <-]. split; [auto|]. intros; discriminate.
    + intros E. apply bind_inv in E. destruct E as ([[c1 h1] s1] & E4 & E5). injection E5 as <- <- <- <-.
      exists (mkFate [] (Some m)). cbn. pose proof (HQ _ _ _ _ _ _ _ E4) as E6. cbn in E6. split; [rewrite E6; auto|]. split; [eauto|]. split; [|eauto].
      intros tp0 [= <-]. split; [auto|]. intros ? [= <-]. apply too_old_false; auto.
Qed.
Lemma tracks_queue c q h s ids : tracks c h s ids -> tracks (lc_set_queue c q) h s ids.
Proof. intros [A1 A2 A3 A4 A5 A6 A7]. split; auto. Qed.
Lemma feet_queue c q h : forall legs id, feet (lc_set_queue c q) h id legs = feet c h id legs.
Proof. induction legs as [|g legs IH]; intros id; [reflexivity|]. cbn [feet]. rewrite IH. reflexivity. Qed.
Lemma corrected_queue n c q h m s s1 : leg_corrected n (lc_set_queue c q) h m s s1 -> leg_corrected n c h m s s1.
Proof. unfold leg_corrected. rewrite feet_queue. auto. Qed.
Lemma booked_queue c q h m s1 c' h' s' : leg_booked (lc_set_queue c q) h m s1 c' h' s' -> leg_booked c h m s1 c' h' s'.
Proof. intros []. split; auto. Qed.
Lemma wfp_unique n m s : wfp n s -> wfp m s -> n = m.
Proof. intros [[_ _ _ A _] _ _ _ _] [[_ _ _ B _] _ _ _ _]. lia. Qed.
(** outcome of a call on a consistent object *)
Lemma leg_call c h s ids sched b c' h' s' : tracks c h s ids -> leg_Correct c h s sched = Ok (b, c', h', s') ->
  exists f ids', lc_queue c ++ concat sched = consumed f ++ lc_queue c' /\ leg_fate_ok c h s f b c' h' s' /\ tracks c' h' s' ids'.
Proof.
  intros T E. destruct (leg_Correct_spec _ _ _ _ _ _ _ _ E) as (f & F1 & F2 & F3 & F4).
  exists f. unfold leg_fate_ok. destruct (f_used f) as [m|] eqn:Ef.
  - destruct F4 as [-> (q & E1 & E2)]. destruct (leg_update_inv _ _ _ _ ids _ _ _ (tracks_queue c q h s ids T) E1) as (s1 & ids' & m' & A1 & A2 & A3 & A4 & A5 & A6).
    exists ids'. split; [exact F1|]. split; [|exact A4]. split; [exact F2|]. split; [exact F3|]. split; [reflexivity|]. exists s1. split.
    + intros n W. rewrite (wfp_unique n (2 + length ids) s W (tr_wf _ _ _ _ T)). apply (corrected_queue _ _ q). exact A2.
    + eapply booked_queue; eauto.
  - destruct F4 as (-> & E1 & -> & ->). exists ids. split; [exact F1|]. split.
    + split; [exact F2|]. split; [exact F3|]. split; [auto|]. split; [auto|]. split; [auto|]. rewrite E1. reflexivity.
    + rewrite E1. apply tracks_queue; auto.
Qed.
(** ** histories *)
Lemma tracks_one c h s ids : tracks c h s ids -> one_column_per_leg c h s.
Proof.
  intros T. exists (length ids). split; [apply T|]. split.
  - intros id Hid. destruct (lc_map c id) as [a|] eqn:Ea; [|congruence]. destruct (tracks_contact _ _ _ _ _ _ T Ea) as (E1 & E2 & _). eauto.
  - intros k Hk. destruct (nth_error ids k) as [a|] eqn:Ea; [|apply nth_error_None in Ea; lia].
    destruct (tr_onto _ _ _ _ T a (nth_error_In _ _ Ea)) as [id Eid]. exists id.
    destruct (tracks_contact _ _ _ _ _ _ T Eid) as (E1 & E2 & _). rewrite (age_unique _ _ _ (tr_nodup _ _ _ _ T) Ea) in E1.
    split; [exact E1|]. intros id' E'. unfold contact_of in E'. destruct (lc_map c id') as [a'|] eqn:Ea'; [|discriminate].
    destruct (tracks_contact _ _ _ _ _ _ T Ea') as (E3 & _). unfold contact_of in E3. rewrite Ea' in E3. rewrite E3 in E'. injection E' as E'.
    apply (tr_inj _ _ _ _ T _ _ a); auto. rewrite Ea'. f_equal.
    pose proof (age_nth _ _ (tr_in _ _ _ _ T _ _ Ea')) as E4. rewrite E', Ea in E4. congruence.
Qed.
Lemma tracks_start q e g h s : wfp 2 s -> scmap s = repeat None 5 -> tracks (LeggedKinematicsCorrection q e g) h s [].
Proof.
  intros W E. split; cbn [length]; auto.
  - constructor.
  - intros k a H. destruct k; discriminate.
  - intros; discriminate.
  - intros; discriminate.
  - intros a [].
Qed.

Lemma fresh_true thr tp m : fresh thr tp m = true <-> ~ stale thr tp (lm_t m).
Proof. unfold fresh, stale. destruct (Rle_dec _ _); split; intros; try discriminate; auto; lra. Qed.
Lemma fate_first thr tp f q : Forall (fun m => stale thr tp (lm_t m)) (f_dropped f) -> (forall m, f_used f = Some m -> ~ stale thr tp (lm_t m)) ->
  forall m, f_used f = Some m -> find (fresh thr tp) (consumed f ++ q) = Some m.
Proof.
  intros HF HU m Em. unfold consumed. rewrite Em. destruct f as [d u]. cbn [f_dropped f_used] in *.
  induction HF as [|x d Hx HF IH]; cbn [app find].
  - destruct (fresh thr tp m) eqn:Ef; auto. exfalso. assert (~ stale thr tp (lm_t m)) as H by (apply HU; auto). apply fresh_true in H. congruence.
  - destruct (fresh thr tp x) eqn:Ef; auto. apply fresh_true in Ef. tauto.
Qed.
Lemma find_in {A} (p : A -> bool) l m : find p l = Some m -> In m l.
Proof. intros H. apply find_some in H. tauto. Qed.
Lemma Propagate_meta K ip s b ip' s' : wfp K s -> Propagate ip s = Ok (b, ip', s') -> wfp K s' /\ scmap s' = scmap s /\ sQc s' = sQc s.
Proof.
  intros W. unfold Propagate. destruct (ip_queue ip) as [|x q]; [intros [= <- <- <-]; auto|]. intros E.
  apply bind_inv in E. destruct E as (m & _ & E). apply bind_inv in E. destruct E as (s1 & E1 & E). injection E as <- <- <-.
  assert (exists t0, stprop s = Some t0) as [t0 Ht].
  { unfold propagate_with in E1. apply bind_inv in E1. destruct E1 as (t0 & E0 & _). unfold get_propagate_time in E0. destruct (stprop s); [eauto|discriminate]. }
  destruct (step_wfp K _ m s t0 s1 W Ht E1) as (A1 & A2 & A3 & A4 & A5 & A6 & _). auto.
Qed.
Lemma vel_Correct_meta K c s sched b c' s' : wfp K s -> vel_Correct c s sched = Ok (b, c', s') -> wfp K s' /\ scmap s' = scmap s /\ sQc s' = sQc s.
Proof.
  intros W E. destruct (vel_Correct_spec _ _ _ _ _ _ E) as (_ & f & _ & _ & _ & F4). destruct (f_used f) as [m|].
  - destruct F4 as [_ F4]. destruct (vel_update_time K c m s s' W F4) as [W' M]. destruct M as (M1 & M2 & M3 & M4 & M5 & _). auto.
  - destruct F4 as [_ ->]. auto.
Qed.
Lemma leg_reach_tracks n c h s l : leg_reach n c h s l ->
  n_legs n (lc_queue c) /\ (exists ids, tracks c h s ids) /\
  (forall m, l = Some m -> length (lm_legs m) = n) /\
  (forall id, tracked c id <-> match l with None => False | Some m => in_contact m id end).
Proof.
  induction 1 as [q e g h s HQ W E|c h s l sched b c' h' s' HR (HQ & (ids & T) & HL & HT) HS E|c h s l vc sched b vc' s' HR (HQ & (ids & T) & HL & HT) E|c h s l ip b ip' s' HR (HQ & (ids & T) & HL & HT) E].
  - split; [exact HQ|]. split; [exists []; apply tracks_start; auto|]. split; [discriminate|]. intros id. unfold tracked. cbn. tauto.
  - destruct (leg_call _ _ _ _ _ _ _ _ _ T E) as (f & ids' & F1 & (F2 & F3 & F4) & T').
    assert (n_legs n (lc_queue c ++ concat sched)) as HA by (apply Forall_app; auto).
    split; [red in HA; rewrite F1 in HA; apply Forall_app in HA; tauto|]. split; [eauto|].
    destruct (f_used f) as [m|] eqn:Ef.
    + destruct F4 as [-> (s1 & _ & [B1 _ _ _ _ _])].
      destruct (F2 m) as [tp Etp]. { unfold consumed. rewrite Ef. apply in_app_iff. right. left; auto. }
      destruct (F3 tp Etp) as [G1 G2]. unfold first_fresh. rewrite Etp, F1.
      rewrite (fate_first (lc_thr c) tp f _ G1) with (m := m) by (auto; rewrite Ef; auto).
      assert (length (lm_legs m) = n) as Hn.
      { red in HA. rewrite Forall_forall in HA. apply HA. rewrite F1. unfold consumed. rewrite Ef. apply in_app_iff. left. apply in_app_iff. right. left; auto. }
      split; [intros ? [= <-]; auto|]. intros id. rewrite B1.
      unfold tracked_after, in_contact. destruct (nth_error (lm_legs m) id) as [o|] eqn:Eo.
      * split; [eauto|]. intros (o' & [= <-] & H). auto.
      * split; [|intros (o' & [=] & _)]. intros Htr. exfalso. apply HT in Htr. destruct l as [m0|]; [|tauto].
        destruct Htr as (o & E1 & _). assert (id < length (lm_legs m0))%nat by (apply nth_error_Some; congruence).
        rewrite (HL m0 eq_refl), <- Hn in H. apply nth_error_None in Eo. lia.
    + destruct F4 as (-> & -> & -> & Hm). split; [exact HL|]. unfold tracked. intros id. rewrite Hm. apply HT.
  - pose proof (tr_wf _ _ _ _ T) as W. destruct (vel_Correct_meta _ _ _ _ _ _ _ W E) as ([W1 _ H1 _ _] & H2 & H3).
    split; [exact HQ|]. split; [exists ids; apply (tracks_meta c h s); auto; rewrite H1; symmetry; apply W|]. auto.
  - pose proof (tr_wf _ _ _ _ T) as W. destruct (Propagate_meta _ _ _ _ _ _ W E) as ([W1 _ H1 _ _] & H2 & H3).
    split; [exact HQ|]. split; [exists ids; apply (tracks_meta c h s); auto; rewrite H1; symmetry; apply W|]. auto.
Qed.
(** C23 *)
Lemma thm_leg_contacts n c h s l : leg_reach n c h s l ->
  one_column_per_leg c h s /\ (forall id, tracked c id <-> exists m, l = Some m /\ in_contact m id).
Proof.
  intros H. destruct (leg_reach_tracks _ _ _ _ _ H) as (_ & (ids & T) & _ & HT). split; [eapply tracks_one; eauto|].
  intros id. rewrite HT. destruct l as [m|]; split; eauto; try tauto.
  - intros (m0 & [= <-] & Hm). exact Hm.
  - intros (m0 & [=] & _).
Qed.
(** C24, C25: what each call on a reachable object does *)
Lemma thm_leg_call n c h s l sched b c' h' s' : leg_reach n c h s l -> leg_Correct c h s sched = Ok (b, c', h', s') ->
  exists f, lc_queue c ++ concat sched = consumed f ++ lc_queue c' /\ leg_fate_ok c h s f b c' h' s'.
Proof.
  intros H E. destruct (leg_reach_tracks _ _ _ _ _ H) as (_ & (ids & T) & _ & _).
  destruct (leg_call _ _ _ _ _ _ _ _ _ T E) as (f & ids' & F1 & F2 & _). eauto.
Qed.
Lemma leg_Correct_total c h s ids sched : tracks c h s ids -> psd (sP s) -> leg_noise_ok c -> (exists tp, stprop s = Some tp) ->
  exists b c' h' s' ids', leg_Correct c h s sched = Ok (b, c', h', s') /\ tracks c' h' s' ids' /\ psd (sP s').
Proof.
  intros T HP HN (tp & Et). unfold leg_Correct. destruct (_ ++ _) as [|m q].
  { do 5 eexists. split; [reflexivity|]. split; [apply tracks_queue; eauto|auto]. }
  unfold get_propagate_time. rewrite Et. cbn [of_opt bind].
  match goal with |- context [match ?x with _ => _ end] => destruct x as [[r q1] bs] end. destruct r as [m1|].
  2:{ do 5 eexists. split; [reflexivity|]. split; [apply tracks_queue; eauto|auto]. }
  destruct (thm_leg_update (lc_set_queue c (q1 ++ concat bs)) h m1 s ids) as (s1 & c' & h' & s' & ids' & E & _ & _ & T' & HP'); auto.
  { apply tracks_queue; auto. }
  rewrite E. cbn [bind]. do 5 eexists. split; [reflexivity|]. split; eauto.
Qed.
Lemma thm_leg_total n c h s l sched : leg_reach n c h s l -> psd (sP s) -> leg_noise_ok c -> (exists tp, stprop s = Some tp) ->
  exists b c' h' s', leg_Correct c h s sched = Ok (b, c', h', s') /\ psd (sP s').
Proof.
  intros H HP HN Ht. destruct (leg_reach_tracks _ _ _ _ _ H) as (_ & (ids & T) & _ & _).
  destruct (leg_Correct_total c h s ids sched T HP HN Ht) as (b & c' & h' & s' & ids' & E & _ & HP'). do 4 eexists. split; eauto.
Qed.

(** ** re-measuring *)
Lemma feet_in c h : forall legs id f, In f (feet c h id legs) ->
  exists i o, (id <= i)%nat /\ nth_error legs (i - id) = Some o /\ lo_contact o = true /\ contact_of c h i = Some (ft_k f) /\ ft_pos f = lo_pos o.
Proof.
  induction legs as [|g legs IH]; intros id f; cbn [feet]; [intros []|]. intros H. apply in_app_iff in H. destruct H as [H|H].
  - destruct (lo_contact g) eqn:Eg; [|destruct H]. destruct (contact_of c h id) as [k|] eqn:Ek; [|destruct H]. destruct H as [<-|[]].
    exists id, g. rewrite Nat.sub_diag. repeat split; auto.
  - destruct (IH _ _ H) as (i & o & H1 & H2 & H3). exists i, o. split; [lia|]. replace (i - id)%nat with (S (i - S id)) by lia. auto.
Qed.
Lemma consistent_Z c h s m : consistent c h s m -> leg_Z (sX s) (feet c h 0 (lm_legs m)) = mO (3 * length (feet c h 0 (lm_legs m))) 1.
Proof.
  intros HC. apply mat_ext; [reflexivity|reflexivity|]. intros i j Hi Hj. unfold leg_Z in *. mdim. rewrite ent_O, ent_mk by auto.
  set (f := nth (i / 3) (feet c h 0 (lm_legs m)) no_foot).
  assert (In f (feet c h 0 (lm_legs m))) as Hf by (apply nth_In; apply Nat.div_lt_upper_bound; lia).
  destruct (feet_in _ _ _ _ _ Hf) as (id & o & _ & E1 & E2 & E3 & E4). rewrite Nat.sub_0_r in E1.
  assert (foot_innovation (sX s) f = vzero) as ->.
  { unfold foot_innovation. rewrite E4. rewrite (HC id o (col (sX s) (2 + ft_k f)) E1 E2); [|unfold ppos; rewrite E3; reflexivity].
    generalize (rot (sX s) *v lo_pos o), (col (sX s) 1). intros [] []. unfold vsub, vadd, vneg, vzero. cbn. f_equal; ring. }
  destruct (i mod 3) as [|[|[|]]]; reflexivity.
Qed.
Lemma thm_consistent K c h s m s1 : wfp K s -> consistent c h s m -> leg_corrected K c h m s s1 -> sX s1 = sX s /\ sTheta s1 = sTheta s.
Proof.
  intros [W HK Hty HQ1 HQ2] HC. unfold leg_corrected. destruct (Nat.eqb _ 0); [intros ->; auto|].
  rewrite (consistent_Z _ _ _ _ HC). intros E.
  assert (wf K (set_time s (lm_t m))) as W' by (destruct W; split; auto).
  apply (thm_zero_innovation K (3 * length (feet c h 0 (lm_legs m))) (leg_H K (feet c h 0 (lm_legs m))) (leg_N (sX s) (feet c h 0 (lm_legs m)))
     (set_time s (lm_t m)) (mkCorr true (mO (3 * length (feet c h 0 (lm_legs m))) 1) (leg_H K (feet c h 0 (lm_legs m))) (leg_N (sX s) (feet c h 0 (lm_legs m))) (lc_err c))); auto.
  repeat split.
Qed.
Lemma removed_none c : forall legs id, (forall i o, nth_error legs i = Some o -> lo_contact o = false -> lc_map c (id + i) = None) -> removed c id legs = [].
Proof.
  intros legs id H. destruct (removed c id legs) as [|x r] eqn:E; auto. exfalso.
  assert (In x (removed c id legs)) as Hx by (rewrite E; left; auto). apply removed_spec in Hx. destruct Hx as (o & H1 & H2 & H3 & H4).
  apply H4. replace x with (id + (x - id))%nat by lia. eauto.
Qed.
Lemma added_none c : forall legs id, (forall i o, nth_error legs i = Some o -> lo_contact o = true -> lc_map c (id + i) <> None) -> added c id legs = [].
Proof.
  intros legs id H. destruct (added c id legs) as [|x r] eqn:E; auto. exfalso.
  assert (In (nid x) (map nid (added c id legs))) as Hx by (rewrite E; left; auto). apply added_spec in Hx. destruct Hx as (o & H1 & H2 & H3 & H4).
  apply (H (nid x - id)%nat o H2 H3). replace (id + (nid x - id))%nat with (nid x) by lia. auto.
Qed.
(** a measurement with the contacts already tracked and the feet where the state has
    them changes neither the mean nor the contacts *)
Lemma leg_update_fixed c h m s ids : tracks c h s ids -> consistent c h s m ->
  (forall id o, nth_error (lm_legs m) id = Some o -> (tracked c id <-> lo_contact o = true)) ->
  forall c' h' s', leg_update c h m s = Ok (c', h', s') -> sX s' = sX s /\ sTheta s' = sTheta s /\ h' = h /\ (forall id, lc_map c' id = lc_map c id).
Proof.
  intros T HC HT c' h' s' E. rewrite (leg_update_eq c h m s ids T) in E. cbv zeta in E.
  apply bind_inv in E. destruct E as (s1 & E1 & E).
  rewrite removed_none, added_none in E.
  - cbn [foldM bind] in E. injection E as <- <- <-.
    destruct (thm_consistent (2 + length ids) c h s m s1 (tr_wf _ _ _ _ T) HC) as [A1 A2]; [|auto].
    red. destruct (Nat.eqb _ 0); congruence.
  - intros i o H1 H2. apply (HT i o H1) in H2. exact H2.
  - intros i o H1 H2. destruct (lc_map c (0 + i)) eqn:Em; auto. exfalso. assert (lo_contact o = true); [|congruence]. apply (HT i o H1). red. cbn in Em. congruence.
Qed.
Lemma thm_remeasure n c h s l m c' h' s' m2 c2 h2 s2 : leg_reach n c h s l -> (forall id, ~ tracked c id) ->
  leg_update c h m s = Ok (c', h', s') -> lm_legs m2 = lm_legs m -> leg_update c' h' m2 s' = Ok (c2, h2, s2) ->
  sX s2 = sX s' /\ sTheta s2 = sTheta s' /\ h2 = h' /\ (forall id, lc_map c2 id = lc_map c' id).
Proof.
  intros HR H0 E El E2. destruct (leg_reach_tracks _ _ _ _ _ HR) as (_ & (ids & T) & _ & _).
  destruct (leg_update_inv _ _ _ _ _ _ _ _ T E) as (s1 & ids' & m' & A1 & A2 & A3 & A4 & A5 & A6).
  eapply leg_update_fixed; eauto.
  - intros id o x Eo Eco Ep. rewrite El in Eo. destruct (lb_new _ _ _ _ _ _ _ A3 id o Eo Eco (H0 id)) as (B1 & _). congruence.
  - intros id o Eo. rewrite El in Eo. rewrite (lb_tracked _ _ _ _ _ _ _ A3). unfold tracked_after. rewrite Eo. tauto.
Qed.

(** ** C25 refuted: a measurement from the future is used *)
Definition no_lcfg := mkLCfg None None None None.
Definition ex_lc (q : list lmeas) : leg_corr := LeggedKinematicsCorrection q RightInvariant no_lcfg.
Lemma ctor_leg_noise q e g : (forall x, h_kin g = Some x -> x <> 0) -> leg_noise_ok (LeggedKinematicsCorrection q e g).
Proof.
  intros H. split; cbn [lc_kin_std lc_contact_cov LeggedKinematicsCorrection].
  - destruct (h_kin g); cbn; [auto|lra].
  - set (x := dflt (h_contact g) (1 / 10)). apply psd_std. unfold x. apply Rle_0_sqr.
Qed.
Lemma thm_leg_future_refuted : exists n c h s sched tp c' h' s' m,
  leg_reach n c h s None /\ psd (sP s) /\ stprop s = Some tp /\ lc_queue c = [m] /\
  leg_Correct c h s sched = Ok (true, c', h', s') /\ st s' = Some (lm_t m) /\ tp + lc_thr c < lm_t m.
Proof.
  set (s := set_cmap (ex_state 2 (meye 15) 1) (repeat None 5)).
  assert (wfp 2 s) as W. { destruct (ex_wfp 2 (meye 15) 1) as [[] ? ? ? ?]; auto. split; auto. split; auto. }
  set (m := mkLM 5 [mkLO true (mkV 0 0 (-1)) mid] (fun _ => vzero)). set (c := ex_lc [m]).
  assert (leg_reach 1 c [] s None) as HR by (apply LR_start; [repeat constructor|auto|reflexivity]).
  assert (tracks c [] s []) as T by (apply tracks_start; auto).
  destruct (thm_leg_update (lc_set_queue c []) [] m s []) as (s1 & c' & h' & s' & ids' & E & E1 & E2 & _).
  { apply tracks_queue, T. } { apply (psd_eye 15). } { apply ctor_leg_noise. discriminate. }
  exists 1%nat, c, [], s, [], 1, c', h', s', m. split; [exact HR|]. split; [apply (psd_eye 15)|]. split; [reflexivity|]. split; [reflexivity|]. split.
  - unfold leg_Correct. cbn [lc_queue c ex_lc LeggedKinematicsCorrection hd_batch app]. unfold get_propagate_time. 
    change (stprop s) with (Some 1). cbn [of_opt bind]. cbn [lc_thr c ex_lc LeggedKinematicsCorrection no_lcfg h_thr dflt lm_t m].
    assert (too_old (3 / 10) 1 5 = false) as -> by (apply too_old_false; unfold stale; lra).
    cbn [tl_batch concat app]. change (lc_set_queue (ex_lc [m]) []) with (lc_set_queue c []). rewrite E. reflexivity.
  - split; [|cbn; lra]. rewrite (proj1 (lb_time _ _ _ _ _ _ _ E2)).
    destruct (corrected_tracks (lc_set_queue c []) [] m s s1 [] (tracks_queue _ _ _ _ _ T) E1) as [_ (_ & _ & M & _)]. exact M.
Qed.

(** ** the innovation only depends on the invariant error *)
Lemma thm_leg_innovation K s xi E Xt f : wfp K s -> nr xi = (3 + 3 * K)%nat -> nc xi = 1%nat -> (2 + ft_k f < K)%nat ->
  Exp_SEK3 xi = Ok E -> Xt = E *M sX s ->
  ft_pos f = mtr (rot Xt) *v (col Xt (2 + ft_k f) -v col Xt 1) ->
  exists Jr, RightJacobian_SO3 (getV3 xi 0 0) = Ok Jr /\
    foot_innovation (sX s) f = Jr *v (getV3 xi (9 + 3 * ft_k f) 0 -v getV3 xi 6 0).
Proof.
  intros W H1 H2 Hk HE -> Hf. destruct W as [[HX _ _ _ _] HK _ _ _].
  rewrite (Exp_SEK3_ok K) in HE by auto. injection HE as <-.
  destruct (jr_of (getV3 xi 0 0)) as (Jr & EJ & EJ'). exists Jr. split; [exact EJ|].
  pose proof (expSEK_SEK K xi H1) as HS. unfold foot_innovation. rewrite Hf.
  rewrite (rot_mult K), !(col_mult K) by (auto; lia). rewrite (expSEK_rot K), !(expSEK_col K) by (auto; lia).
  rewrite EJ', <- expR_jlT, mtr_mul. replace (3 + 3 * (2 + ft_k f))%nat with (9 + 3 * ft_k f)%nat by lia. change (3 + 3 * 1)%nat with 6%nat.
  pose proof (expSO3_SO3 (getV3 xi 0 0)) as HA. set (A := expSO3 _) in *. set (R := rot (sX s)) in *. assert (SO3 R) as HR by apply HX.
  set (d := col (sX s) (2 + ft_k f)). set (p := col (sX s) 1). set (rd := getV3 xi (9 + 3 * ft_k f) 0). set (rp := getV3 xi 6 0). set (J := jl _).
  replace (A *v d +v J *v rd -v (A *v p +v J *v rp)) with (A *v (d -v p) +v J *v (rd -v rp)) by (clearbody A d p rd rp J; ring3).
  rewrite !mv_mul, SO3_rv by auto. rewrite mv_add_r, SO3_l by auto. clearbody d p. set (z := mtr A *v (J *v (rd -v rp))). clearbody z.
  ring3.
Qed.
