(** Proofs: C78 for the whole estimator. *)
From Coq Require Import Reals ZArith List Bool Arith Lia Lra.
From Verif Require Import Res Vec3 Mat MatInv Psd Spec LieGroup LieSO3 LieSEK RobotState StateProofs StateHist Inekf SpecFilter InekfProofs InekfThms Blk Imu Propagation SpecProp
  PropagationProofs PropagationThms PropagationExact PropagationUniq ImuRest ImuThms ImuNeg Queue VelCorr LegCorr SpecCorr VelThms PsdBlk LegThms LegAdd LegLoop LegUpd LegHist Estimator SpecEst EstInv EstSafe EstPub EstHist EstTime EstQueue
  ClearThms ObsEst ObsThms SpecTrack Track.
Import ListNotations.
Local Open Scope R_scope.

Lemma obj_kind g c : obj_of g c -> kind_ok g c. Proof. destruct g, c; cbn; auto. Qed.
(** settings of a running estimator *)
Definition set_of (f : config) (e : est) : Prop :=
  Forall2 obj_of (f_corrs f) (e_corrs e) /\ forall ip, e_prop e = Some ip -> ip_Rib ip = mounting f /\ ip_t ip = lever f.
Lemma set_build f : set_of f (build f).
Proof. split; [apply objs_build|]. rewrite build_eq. cbn. intros ip [= <-]. split; reflexivity. Qed.
Lemma set_step f e o e' : set_of f e -> est_step e o = Ok e' -> set_of f e'.
Proof.
  intros [H1 H2] E. destruct (step_fixed _ _ _ E) as (_ & F1 & F2). split; [eapply objs_fixed; eauto|].
  intros ip Hip. rewrite Hip in F2. destruct (e_prop e) as [ip0|]; [|discriminate]. cbn [option_map] in F2.
  assert (ip_fixed ip = ip_fixed ip0) as F by congruence. destruct (H2 ip0 eq_refl) as [A B].
  split; [rewrite <- A|rewrite <- B]; [change (ip_Rib ip) with (snd (fst (fst (fst (fst (ip_fixed ip))))))|change (ip_t ip) with (snd (ip_fixed ip))]; rewrite F; reflexivity.
Qed.
Lemma set_run f : forall os e e', set_of f e -> est_run e os = Ok e' -> set_of f e'.
Proof.
  induction os as [|o os IH]; intros e e' H E; [injection E as <-; exact H|]. cbn [est_run foldM] in E. destruct (est_step e o) as [e1|] eqn:E1; [|discriminate]. cbn [bind] in E.
  eapply (IH e1); [eapply set_step; eauto|exact E].
Qed.

Section Track.
Variables (f : config) (T : R -> pose) (bg ba : V3).

Definition trk (fut : list imu) (e : est) (st : stance) : Prop :=
  exists ip m tp, e_prop e = Some ip /\ ip_prev ip = Some m /\ stprop (e_state e) = Some tp /\ pose_of (e_state e) = T tp /\ gbias (e_state e) = bg /\ abias (e_state e) = ba /\
    (tp = i_t m \/ imu_exact f bg ba T tp m) /\ imus_exact f bg ba T (i_t m) (ip_queue ip ++ fut) /\
    (forall c id, leg_of (e_corrs e) = Some c -> ppos c (e_heap e) (e_state e) id = st id).

Lemma used_took g i e l e' c c' tp : nth_error (e_corrs e) i = Some c -> nth_error (e_corrs e') i = Some c' -> obj_of g c -> stprop (e_state e') = Some tp ->
  used_by g i e (ORunOnce l) e' = took g tp c (nth i l no_arr) c'.
Proof.
  intros H1 H2 HO Ht. unfold used_by, took, queue_of, prop_time. rewrite H1, H2, Ht. destruct (arriving_delivered g c i l (obj_kind _ _ HO)) as [-> _]. reflexivity.
Qed.
Lemma ppos_prop c h ids ip m s tp s' id : tracks c h s ids -> stprop s = Some tp -> propagate_with ip m s = Ok s' -> ppos c h s' id = ppos c h s id.
Proof.
  intros HT Ht E. destruct (step_wfp _ _ _ _ _ _ (tr_wf _ _ _ _ HT) Ht E) as (_ & _ & _ & _ & _ & _ & _ & _ & _ & HC). unfold ppos.
  destruct (lc_map c id) as [a|] eqn:Ea; [|unfold contact_of; rewrite Ea; reflexivity]. destruct (tracks_contact _ _ _ _ _ _ HT Ea) as (-> & L & _). cbn [option_map]. rewrite HC by lia. reflexivity.
Qed.
Lemma run_once_trk fut e l e' st st' : est_ok fut e -> set_of f e -> e_enabled e = true -> RunOnce e l = Ok e' -> senses f T e (ORunOnce l) e' st st' -> trk fut e st -> trk fut e' st'.
Proof.
  intros HE [HS1 HS2] HA E HSe (ip & m & tp & Hip & Hm & Ht & HX & Hg & Ha & HT & HF & HP).
  pose proof HE as [(ip0 & Hip0 & HN & _ & _ & HRun) Hno Hle Hsl _ Hon _ _]. rewrite Hip in Hip0. injection Hip0 as <-.
  destruct (HRun HA) as (tp0 & t & m0 & R1 & R2 & R3 & R4). rewrite Ht in R1. injection R1 as <-. rewrite Hm in R3. injection R3 as <-. cbn [map nondec] in R4. destruct R4 as [R4 _].
  destruct (HS2 _ Hip) as [HRib Hlev].
  unfold RunOnce in E. rewrite Hip in E. cbn [of_opt bind] in E. pose proof (Hon HA) as HC. pose proof HC as (ids & C & _). pose proof (contacts_wfp _ _ _ _ C) as W.
  destruct (prop_step _ (e_heap e) ip (e_state e) tp m HC Ht HN Hm R4) as (b & ip' & s1 & E1 & C1 & EQ). rewrite E1 in E. cbn [bind] in E.
  destruct (correct_all (e_corrs e) (e_heap e) s1 l) as [[[[b2 cs] h] s2]|] eqn:E2; [|discriminate]. cbn [bind] in E. rewrite Hsl in E.
  assert (e_state e' = s2 /\ e_heap e' = h /\ e_prop e' = Some ip' /\ e_corrs e' = cs) as (S1 & S2 & S3 & S4) by (destruct (b || b2); cbn [bind] in E; injection E as <-; auto).
  assert (exists tp1 t1 m1, stprop s1 = Some tp1 /\ RobotState.st s1 = Some t1 /\ ip_prev ip' = Some m1 /\ pose_of s1 = T tp1 /\ gbias s1 = bg /\ abias s1 = ba /\
     (tp1 = i_t m1 \/ imu_exact f bg ba T tp1 m1) /\ imus_exact f bg ba T (i_t m1) (ip_queue ip' ++ fut) /\
     (forall c id, leg_of (e_corrs e) = Some c -> ppos c (e_heap e) s1 id = st id)) as (tp1 & t1 & m1 & T1 & T2 & T3 & T4 & T5 & T6 & T7 & T8 & T9).
  { unfold Propagate in E1. destruct (ip_queue ip) as [|x q] eqn:Eq.
    - destruct EQ as (_ & -> & ->). exists tp, t, m. rewrite Eq. auto 12.
    - destruct EQ as (_ & -> & A1 & A2). exists (i_t m), (i_t m), x. rewrite Hm in E1. cbn [of_opt bind] in E1.
      destruct (propagate_with (set_prev (set_queue ip q) x) m (e_state e)) as [s1'|] eqn:EP; [|discriminate]. cbn [bind] in E1. injection E1 as _ <-.
      destruct (prop_track f T bg ba _ _ m _ tp s1' W Ht EP HRib Hlev Hg Ha HX HT) as (B1 & B2 & B3).
      cbn [app imus_exact] in HF. destruct HF as [HF1 HF2]. cbn [ip_queue ip_prev set_prev set_queue].
      split; [exact A1|]. split; [exact A2|]. split; [reflexivity|]. split; [exact B1|]. split; [exact B2|]. split; [exact B3|]. split; [right; exact HF1|]. split; [exact HF2|].
      intros c id Hc. rewrite <- (HP c id Hc). rewrite Hc in C. cbn [contacts] in C. eapply ppos_prop; eauto. }
  destruct (correct_all_ok (e_corrs e) None (e_heap e) s1 l tp1 t1 ltac:(cbn; lia) Hno C1 T1 T2) as (b2' & cs' & h' & s' & t' & E2' & _ & _ & _ & T10 & _).
  rewrite E2 in E2'. injection E2' as <- <- <- <-.
  assert (prop_time (e_state e') = tp1) as PT by (unfold prop_time; rewrite S1, T10; reflexivity).
  cbn [senses] in HSe. cbv zeta in HSe. rewrite PT in HSe. destruct HSe as (Z1 & Z2 & Z3).
  assert (forall i g c c', nth_error (f_corrs f) i = Some g -> nth_error (e_corrs e) i = Some c -> nth_error cs i = Some c' -> used_by g i e (ORunOnce l) e' = took g tp1 c (nth i l no_arr) c') as HU.
  { intros i g c c' G1 G2 G3. destruct (objs_kind _ _ HS1 i g G1) as (c0 & G4 & G5). rewrite G2 in G4. injection G4 as <-.
    apply used_took; [exact G2|rewrite S4; exact G3|exact G5|rewrite S1; exact T10]. }
  destruct (correct_track tp1 (T tp1) st (e_corrs e) (f_corrs f) (e_heap e) s1 l b2 cs h s2 Hle HS1 Hno C1 T1) as (X2 & Th2 & st2 & P2 & L1 & L2).
  - exists t1. auto.
  - exact E2.
  - intros i g c c' r G1 G2 G3 G4. apply (Z1 i g r G1). rewrite (HU i g c c' G1 G2 G3). exact G4.
  - exact T9.
  - assert (st' = st2) as ->.
    { assert (forall m, leg_used tp1 (f_corrs f) (e_corrs e) l cs m -> st' = st2) as HL.
      { intros lm HL. rewrite (L1 _ HL). destruct HL as (i & g & c & c' & G1 & G2 & G3 & G4). apply (Z2 i g lm G1). rewrite (HU _ _ _ _ G1 G2 G3). exact G4. }
      assert (length cs = length (e_corrs e)) as Len. { pose proof (correct_all_fixed _ _ _ _ _ _ _ _ E2) as F. apply (f_equal (@length _)) in F. rewrite !map_length in F. exact F. }
      assert (forall i g lm, nth_error (f_corrs f) i = Some (GLeg g) -> used_by (GLeg g) i e (ORunOnce l) e' = Some (Datatypes.inr lm) -> leg_used tp1 (f_corrs f) (e_corrs e) l cs lm) as HC2.
      { intros i g lm G1 G. destruct (objs_kind _ _ HS1 i _ G1) as (c & G2 & G3). destruct (nth_error cs i) as [c'|] eqn:G4.
        2:{ apply nth_error_None in G4. assert (i < length (e_corrs e))%nat by (apply nth_error_Some; congruence). lia. }
        exists i, g, c, c'. rewrite <- (HU i (GLeg g) c c' G1 G2 G4). auto. }
      destruct (Classical_Prop.classic (exists lm, leg_used tp1 (f_corrs f) (e_corrs e) l cs lm)) as [(lm & H)|H]; [eapply HL; eauto|].
      rewrite L2 by (intros lm Hlm; apply H; eauto). apply Z3. intros i g lm G1 G. apply H. exists lm. eapply HC2; eauto. }
    exists ip', m1, tp1. rewrite S1, S2, S3, S4. split; [reflexivity|]. split; [exact T3|]. split; [exact T10|]. split; [exact X2|].
    unfold gbias, abias in *. rewrite Th2. auto 10.
Qed.

Lemma leg_of_in : forall cs c, leg_of cs = Some c -> In (CLeg c) cs.
Proof. induction cs as [|[x|x] cs IH]; cbn; intros c H; [discriminate|right; auto|injection H as ->; left; reflexivity]. Qed.
Lemma leg_of_unique : forall cs c, (n_leg cs <= 1)%nat -> In (CLeg c) cs -> leg_of cs = Some c.
Proof.
  unfold n_leg. induction cs as [|[x|x] cs IH]; cbn; intros c Hn H; [contradiction| |].
  - destruct H as [H|H]; [discriminate|]. apply IH; auto.
  - destruct H as [H|H]; [congruence|]. exfalso. assert (n_leg cs = 0%nat) as Z by (unfold n_leg; lia). clear -H Z. unfold n_leg in Z. induction cs as [|[y|y] cs IH]; cbn in *; [contradiction| |discriminate].
    destruct H as [H|H]; [discriminate|auto].
Qed.
Lemma ppos_push i v l cs h s st : (forall c id, leg_of cs = Some c -> ppos c h s id = st id) ->
  forall c id, leg_of (upd_nth cs i (fun c => push_corr c v l)) = Some c -> ppos c h s id = st id.
Proof.
  intros H c id Hc. destruct (leg_of_push i v l cs) as (_ & _ & [E|(c0 & q & E1 & E2)]); [apply H; congruence|]. rewrite E2 in Hc. injection Hc as <-. rewrite ppos_queue. apply H. exact E1.
Qed.
Lemma step_trk fut e o e' st st' : est_ok (op_imu o ++ fut) e -> allowed e o -> o <> OClear -> set_of f e -> e_enabled e = true -> est_step e o = Ok e' -> senses f T e o e' st st' ->
  trk (op_imu o ++ fut) e st -> e_enabled e' = true /\ trk fut e' st' /\ (step_pub is_filter_op e o e' = [] \/ step_pub is_filter_op e o e' = [e_state e']).
Proof.
  intros HE HA HNC HS He E HSe HT. pose proof (enabled_step _ _ _ E) as ES. unfold step_pub. destruct o; cbn [is_filter_op op_imu app senses allowed] in *; try subst st'; try (exfalso; lazymatch type of HA with _ /\ _ => idtac end; destruct HA as [HA _]; congruence).
  - destruct ES as [_ ES]. split; [congruence|]. split; [|auto]. destruct HT as (ip & m0 & tp & H1 & H2 & H3 & H4 & H5 & H6 & H7 & H8 & H9). cbn [est_step] in E. rewrite H1 in E. cbn [of_opt bind] in E. injection E as <-.
    exists (set_queue ip (ip_queue ip ++ [m])), m0, tp. cbn [e_prop e_set_prop e_set e_state e_corrs e_heap ip_queue set_queue ip_prev]. rewrite <- app_assoc. auto 12.
  - destruct ES as [_ ES]. split; [congruence|]. split; [|auto]. destruct HT as (ip & m0 & tp & H1 & H2 & H3 & H4 & H5 & H6 & H7 & H8 & H9). cbn [est_step] in E. injection E as <-.
    exists ip, m0, tp. cbn [e_prop e_set_corrs e_set e_state e_corrs e_heap]. do 8 (split; [assumption|]). apply ppos_push. exact H9.
  - destruct ES as [_ ES]. split; [congruence|]. split; [|auto]. destruct HT as (ip & m0 & tp & H1 & H2 & H3 & H4 & H5 & H6 & H7 & H8 & H9). cbn [est_step] in E. injection E as <-.
    exists ip, m0, tp. cbn [e_prop e_set_corrs e_set e_state e_corrs e_heap]. do 8 (split; [assumption|]). apply ppos_push. exact H9.
  - cbn [est_step] in E. destruct (RunOnce_spec fut e l HE He) as (e1 & fs & b & tp & A1 & A2 & A3 & A4 & A5 & A6 & A7 & A8 & A9 & _). rewrite E in A1. injection A1 as <-.
    split; [exact A9|]. split; [eapply run_once_trk; eauto|]. rewrite A7, skipn_app_len. destruct b; [right|left]; reflexivity.
  - exfalso. apply HNC. reflexivity.
  - destruct ES as [_ ES]. split; [congruence|]. split; [|auto]. cbn [est_step] in E. injection E as <-. exact HT.
  - destruct ES as [_ ES]. split; [congruence|]. split; [|auto]. cbn [est_step] in E. injection E as <-. unfold LogPop. destruct (e_pending e); [exact HT|]. destruct (e_logq e); exact HT.
  - destruct ES as [_ ES]. split; [congruence|]. split; [|auto]. cbn [est_step] in E. unfold LogWrite in E. destruct (e_pending e); [|injection E as <-; exact HT]. destruct (get_time r); [|discriminate]. cbn [bind] in E. destruct (e_logger e && _).
    + repeat (apply bind_inv in E; destruct E as (? & _ & E)). injection E as <-. exact HT.
    + injection E as <-. exact HT.
Qed.
Lemma trk_truth fut e st : trk fut e st -> on_truth T (e_state e).
Proof. intros (ip & m & tp & _ & _ & H3 & H4 & _). exists tp. auto. Qed.
Lemma run_trk : forall os e st st' e', est_ok (imus os) e -> protocol e os -> ~ In OClear os -> set_of f e -> e_enabled e = true -> sensing f T e os st st' -> trk (imus os) e st -> est_run e os = Ok e' ->
  est_ok [] e' /\ trk [] e' st' /\ Forall (on_truth T) (published is_filter_op e os).
Proof.
  induction os as [|o os IH]; intros e st st' e' HE HP HNC HS He HSe HT E; cbn [published].
  { injection E as <-. cbn in HSe. subst st'. auto. }
  destruct HSe as (e1 & st1 & E1 & HSe1 & HSe). rewrite imus_cons in *. destruct HP as [HA HP]. cbn [est_run foldM] in E. rewrite E1 in *. cbn [bind] in E.
  destruct (step_safe _ _ _ HE HA) as [(e2 & E2 & HE2)|[E2 _]]; [|congruence]. rewrite E1 in E2. injection E2 as <-.
  destruct (step_trk (imus os) e o e1 st st1 HE HA ltac:(intros ->; apply HNC; left; reflexivity) HS He E1 HSe1 HT) as (He1 & HT1 & HPub).
  destruct (IH e1 st1 st' e' HE2 (HP _ eq_refl) ltac:(intros H; apply HNC; right; exact H) (set_step _ _ _ _ HS E1) He1 HSe HT1 E) as (I1 & I2 & I3).
  split; [exact I1|]. split; [exact I2|]. fold (step_pub is_filter_op e o e1). apply Forall_app. split; [|exact I3].
  destruct HPub as [->| ->]; constructor; [eapply trk_truth; eauto|constructor].
Qed.
End Track.

(** ** from InitState on *)
Lemma init_trk f T fut e l e' t0 : est_ok fut e -> e_enabled e = false -> InitState e l = Ok e' -> est_ok fut e' -> e_enabled e' = true ->
  stprop (e_state e') = Some t0 -> pose_of (e_state e') = T t0 -> imus_exact f (gbias (e_state e')) (abias (e_state e')) T t0 (imu_queue e' ++ fut) ->
  trk f T (gbias (e_state e')) (abias (e_state e')) fut e' no_feet.
Proof.
  intros HE He E HE' He' Ht HX HI. destruct (ok_prop _ _ HE) as (ip & Hip & _). pose proof (InitState_spec fut e l ip e' HE He Hip E) as H. destruct (ip_queue ip) as [|m q].
  { subst e'. cbn [e_enabled e_set_corrs e_set] in He'. congruence. }
  destruct H as (us & _ & A1 & A2 & A3 & A4 & A5 & A6 & A7 & A8 & A9 & A10 & A11 & A12 & A13). rewrite Ht in A11. injection A11 as ->.
  unfold imu_queue in HI. rewrite A2 in HI. exists (set_prev (set_queue ip q) m), m, (i_t m).
  split; [exact A2|]. split; [reflexivity|]. split; [exact Ht|]. split; [exact HX|]. do 2 (split; [reflexivity|]). split; [left; reflexivity|]. split; [exact HI|].
  intros c id Hc. destruct (ok_on _ _ HE' He') as (ids & C & _). rewrite Hc in C. cbn [contacts] in C. pose proof (tr_wf _ _ _ _ C) as W.
  assert (ids = []) as ->. { pose proof (sek_cols _ _ (wf_X _ _ (wp_wf _ _ A6))) as C1. pose proof (sek_cols _ _ (wf_X _ _ (wp_wf _ _ W))) as C2. destruct ids; [reflexivity|cbn [length] in C2; lia]. }
  unfold ppos, contact_of, no_feet. destruct (lc_map c id) as [a|] eqn:Ea; [|reflexivity]. exfalso. exact (tr_in _ _ _ _ C _ _ Ea).
Qed.
Lemma thm_perfect f pre l post e1 e2 T t0 st' : reachable f ((pre ++ [OInitState l]) ++ post) e2 -> est_run (build f) (pre ++ [OInitState l]) = Ok e1 -> e_enabled e1 = true -> ~ In OClear post ->
  stprop (e_state e1) = Some t0 -> pose_of (e_state e1) = T t0 -> imus_exact f (gbias (e_state e1)) (abias (e_state e1)) T t0 (imu_queue e1 ++ imus post) ->
  sensing f T e1 post no_feet st' ->
  on_truth T (e_state e2) /\ gbias (e_state e2) = gbias (e_state e1) /\ abias (e_state e2) = abias (e_state e1) /\ feet_of e2 st' /\ Forall (on_truth T) (published is_filter_op e1 post).
Proof.
  intros (HC & HS & HP & ER) E1 He HN Ht HX HI HSe. pose proof (build_ok f _ HC HS) as HB.
  destruct (run_prefix _ post _ _ HB HP E1) as [H1 P1].
  assert (est_run e1 post = Ok e2) as E2. { unfold est_run in *. rewrite foldM_app, E1 in ER. exact ER. }
  assert (exists e0, est_run (build f) pre = Ok e0 /\ InitState e0 l = Ok e1) as (e0 & E0 & EI).
  { unfold est_run in *. rewrite foldM_app in E1. destruct (foldM est_step (build f) pre) as [e0|]; [|discriminate]. cbn [bind foldM] in E1. exists e0. split; [reflexivity|].
    change (est_step e0 (OInitState l)) with (InitState e0 l) in E1. destruct (InitState e0 l); [exact E1|discriminate]. }
  rewrite <- app_assoc in HB, HP. destruct (run_prefix pre ([OInitState l] ++ post) _ _ HB HP E0) as [H0 P0]. cbn [app imus] in H0, P0. destruct P0 as [[A0 _] _].
  pose proof (set_run f _ _ _ (set_build f) E1) as HSet.
  pose proof (init_trk f T (imus post) e0 l e1 t0 H0 A0 EI H1 He Ht HX HI) as HT.
  destruct (run_trk f T _ _ post e1 no_feet st' e2 H1 P1 HN HSet He HSe HT E2) as (HE2 & HT2 & HPub).
  split; [eapply trk_truth; eauto|]. destruct HT2 as (ip & m & tp & _ & _ & _ & _ & G5 & G6 & _ & _ & G9). split; [exact G5|]. split; [exact G6|]. split; [|exact HPub].
  intros c id Hin. apply G9. apply leg_of_unique; [exact (ok_legs _ _ HE2)|exact Hin].
Qed.
