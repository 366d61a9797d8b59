(** Proofs: which sample is integrated, and the biases the filter starts with (C83). *)
From Coq Require Import Reals ZArith List Bool Arith Lia Lra.
From Verif Require Import Res Vec3 Mat MatInv Psd Spec SpecState LieGroup LieSO3 LieSEK RobotState StateProofs StateHist StateMisc Inekf SpecFilter InekfProofs InekfThms Blk Imu Quat Propagation SpecProp
  PropagationProofs PropagationThms ImuRest ImuThms ImuNeg Queue VelCorr LegCorr SpecCorr VelThms PsdBlk LegThms LegUpd LegHist Estimator SpecEst EstInv EstSafe EstPub EstHist EstTime SpecTrack Track SpecObs Obs ObsEst SpecStep Step.
Import ListNotations.
Local Open Scope R_scope.

Definition no_clears (os : list op) : Prop := ~ In OClear os.
(** calibration so far *)
Definition cal (f : config) (hist : list imu) (ip : imu_prop) : Prop :=
  if dflt (c_static (f_imu f)) true then
    exists used rest, hist = used ++ rest /\ ip_vec ip = map (calib_sample ip) used /\ (length used <= calib_window f)%nat /\
      (ip_bias_init ip = false -> rest = ip_queue ip) /\
      (ip_bias_init ip = true -> length used = calib_window f /\ is_mean (ip_bg0 ip) (map (fun m => mounting f *v i_w m) used) /\ is_mean (ip_ba0 ip) (map (level_force f) used))
  else ip_bg0 ip = dflt (c_bg (f_imu f)) vzero /\ ip_ba0 ip = dflt (c_ba (f_imu f)) vzero.
(** where the stream is *)
Definition at_sample (hist : list imu) (e : est) : Prop :=
  if e_enabled e then exists ip m, e_prop e = Some ip /\ ip_prev ip = Some m /\ in_turn hist m (ip_queue ip)
  else exists before, hist = before ++ imu_queue e.

Lemma ip_conf_fields f ip : ip_conf f ip -> ip_static ip = dflt (c_static (f_imu f)) true /\ ip_init_size ip = dflt (c_init_size (f_imu f)) 0%Z /\
  ip_use_ori ip = dflt (c_use_ori (f_imu f)) false /\ ip_Rib ip = mounting f /\ ip_t ip = lever f.
Proof.
  unfold ip_conf. destruct ip as [q e sc sz uo Rib g1 g2 g3 g4 bg ba en tr bi ve pv]. cbn. intros H. injection H as -> -> -> -> -> -> -> -> -> -> ->. repeat split.
Qed.
Lemma calib_fst f ip m : ip_conf f ip -> fst (calib_sample ip m) = mounting f *v i_w m.
Proof. intros H. destruct (ip_conf_fields f ip H) as (_ & _ & _ & E & _). cbn. rewrite E. reflexivity. Qed.
Lemma calib_snd f ip m : ip_conf f ip -> snd (calib_sample ip m) = level_force f m.
Proof. intros H. destruct (ip_conf_fields f ip H) as (_ & _ & E0 & E & E1). unfold level_force. cbn. rewrite E, E0, E1. reflexivity. Qed.
Lemma cal_ext f hist ip ip' : ip_conf f ip -> ip_conf f ip' -> cal f hist ip -> ip_vec ip' = ip_vec ip -> ip_bias_init ip' = ip_bias_init ip -> ip_bg0 ip' = ip_bg0 ip -> ip_ba0 ip' = ip_ba0 ip ->
  (ip_bias_init ip = false -> ip_queue ip' = ip_queue ip) -> cal f hist ip'.
Proof.
  intros C1 C2 H E1 E2 E3 E4 E5. unfold cal in *. destruct (dflt (c_static (f_imu f)) true); [|rewrite E3, E4; exact H].
  destruct H as (used & rest & A1 & A2 & A3 & A4 & A5). exists used, rest. rewrite E1, E2, E3, E4. split; [exact A1|]. split.
  - rewrite A2. apply map_ext. intros m. rewrite (surjective_pairing (calib_sample ip m)), (surjective_pairing (calib_sample ip' m)), !(calib_fst f), !(calib_snd f) by auto. reflexivity.
  - split; [exact A3|]. split; [|exact A5]. intros B. rewrite A4, E5 by auto. reflexivity.
Qed.
Lemma cal_init f hist ip ip' : config_ok f -> ip_conf f ip -> ip_conf f ip' -> cal f hist ip -> ip_bias_init ip = false -> InitImuBias ip = Ok ip' -> cal f hist ip'.
Proof.
  intros (HW & _) C C' H HB E. destruct (ip_conf_fields f ip C) as (F1 & F2 & F3 & F4 & F5). unfold cal in *. unfold InitImuBias in E. rewrite F1 in E.
  destruct (dflt (c_static (f_imu f)) true); cbn [negb] in E; [|injection E as <-; exact H]. specialize (HW eq_refl).
  destruct H as (used & rest & A1 & A2 & A3 & A4 & A5). specialize (A4 HB). subst rest.
  rewrite F2, size_lt_pos in E by lia. rewrite A2, map_length in E. unfold calib_window in *.
  destruct (Z.ltb_spec (Z.of_nat (length used)) (dflt (c_init_size (f_imu f)) 0%Z)) as [L|L].
  - destruct (ip_queue ip) as [|m q] eqn:Eq.
    + injection E as <-. exists used, []. rewrite Eq. auto 10.
    + injection E as <-. exists (used ++ [m]), q. cbn [ip_vec set_prev set_vec set_queue ip_bias_init ip_queue]. split; [rewrite A1, <- app_assoc; reflexivity|]. split; [rewrite map_app; reflexivity|].
      split; [rewrite app_length; cbn; lia|]. split; [auto|]. congruence.
  - assert (length used <> 0)%nat as Hne by lia. destruct (Nat.eqb_spec (length used) 0) as [|_]; [lia|]. cbn [negb check bind] in E. injection E as <-.
    exists used, (ip_queue ip). cbn [ip_vec set_bias ip_bias_init ip_queue ip_bg0 ip_ba0]. split; [exact A1|]. split; [exact A2|]. split; [exact A3|]. split; [discriminate|]. intros _.
    split; [lia|]. assert (map (calib_sample ip) used <> []) as Hm by (destruct used; [cbn in Hne; lia|discriminate]).
    assert (map (fun m => mounting f *v i_w m) used = map fst (map (calib_sample ip) used)) as -> by (rewrite map_map; apply map_ext; intros; rewrite calib_fst with (f := f); auto).
    assert (map (level_force f) used = map snd (map (calib_sample ip) used)) as -> by (rewrite map_map; apply map_ext; intros; rewrite calib_snd with (f := f); auto).
    split; rewrite <- (map_length (calib_sample ip) used); apply mean_fold; exact Hm.
Qed.

(** ** steps *)
Lemma in_turn_app hist m q x : in_turn hist m q -> in_turn (hist ++ x) m (q ++ x).
Proof. intros (b & ->). exists b. rewrite <- app_assoc. reflexivity. Qed.
Lemma at_ext hist e e' : e_enabled e' = e_enabled e -> e_prop e' = e_prop e -> at_sample hist e -> at_sample hist e'.
Proof. intros E1 E2. unfold at_sample, imu_queue. rewrite E1, E2. auto. Qed.
Lemma prop_frame e o e' : est_step e o = Ok e' -> match o with OImu _ | OInitBias | OInitState _ | ORunOnce _ | OClear => True | _ => e_prop e' = e_prop e end.
Proof.
  destruct o; cbn [est_step]; auto; intros E.
  - injection E as <-. auto.
  - injection E as <-. auto.
  - injection E as <-. auto.
  - injection E as <-. unfold LogPop. destruct (e_pending e); auto. destruct (e_logq e); auto.
  - unfold LogWrite in E. destruct (e_pending e); [|injection E as <-; auto]. destruct (get_time r); [|discriminate]. cbn [bind] in E. destruct (e_logger e && _).
    + repeat (apply bind_inv in E; destruct E as (? & _ & E)). injection E as <-. auto.
    + injection E as <-. auto.
Qed.
Lemma prev_queue ip s b ip' s' : Propagate ip s = Ok (b, ip', s') ->
  match ip_queue ip with [] => ip' = ip | x :: q => ip' = set_prev (set_queue ip q) x end.
Proof.
  unfold Propagate. destruct (ip_queue ip) as [|x q]; [intros E; injection E as <- <- <-; reflexivity|]. intros E.
  apply bind_inv in E. destruct E as (m & _ & E). apply bind_inv in E. destruct E as (s1 & _ & E). injection E as <- <- <-. reflexivity.
Qed.
Lemma run_prop e l e' ip : RunOnce e l = Ok e' -> e_prop e = Some ip -> exists ip', e_prop e' = Some ip' /\ e_enabled e' = e_enabled e /\
  match ip_queue ip with [] => ip' = ip | x :: q => ip' = set_prev (set_queue ip q) x end.
Proof.
  intros E Hip. unfold RunOnce in E. rewrite Hip in E. cbn [of_opt bind] in E. apply bind_inv in E. destruct E as ([[b ip'] s1] & E1 & E).
  apply bind_inv in E. destruct E as ([[[b2 cs] h] s2] & _ & E). exists ip'. assert (e_prop e' = Some ip' /\ e_enabled e' = e_enabled e) as [-> ->].
  { destruct (b || b2); [apply bind_inv in E; destruct E as (s3 & _ & E)|]; injection E as <-; auto. }
  split; [reflexivity|]. split; [reflexivity|]. exact (prev_queue _ _ _ _ _ E1).
Qed.
Lemma init_prop fut e l e' ip : est_ok fut e -> e_enabled e = false -> e_prop e = Some ip -> InitState e l = Ok e' ->
  match ip_queue ip with
  | [] => e_enabled e' = false /\ e_prop e' = Some ip
  | m :: q => e_enabled e' = true /\ e_prop e' = Some (set_prev (set_queue ip q) m)
  end.
Proof.
  intros HE He Hip E. pose proof (InitState_spec fut e l ip e' HE He Hip E) as H. destruct (ip_queue ip) as [|m q].
  - subst e'. cbn. auto.
  - destruct H as (us & _ & A & B & _). auto.
Qed.
Lemma at_step hist fut e o e' : est_ok (op_imu o ++ fut) e -> allowed e o -> est_step e o = Ok e' -> at_sample hist e -> at_sample (hist ++ op_imu o) e'.
Proof.
  intros HE HA E H. pose proof (prop_frame _ _ _ E) as EP. pose proof (enabled_step _ _ _ E) as ES. pose proof HE as [(ip & Hip & _) _ _ _ _ _ _ _].
  destruct o; cbn [op_imu] in *; rewrite ?app_nil_r; try (eapply at_ext; [apply ES|exact EP|exact H]); cbn [est_step] in E.
  - (* OImu *) rewrite Hip in E. cbn [of_opt bind] in E. injection E as <-. unfold at_sample, imu_queue in *. cbn [e_enabled e_set_prop e_set e_prop] in *. rewrite Hip in H. destruct (e_enabled e).
    + destruct H as (ip0 & x & [= <-] & A & B). exists (set_queue ip (ip_queue ip ++ [m])), x. split; [reflexivity|]. split; [exact A|]. cbn. apply in_turn_app. exact B.
    + destruct H as (b & ->). exists b. cbn. rewrite <- app_assoc. reflexivity.
  - (* OInitBias *) destruct HA as [He _]. unfold InitBias in E. rewrite Hip in E. cbn [of_opt bind] in E. destruct (InitImuBias ip) as [ip'|] eqn:E1; [|discriminate]. cbn [bind] in E. injection E as <-.
    unfold at_sample, imu_queue in *. cbn [e_enabled e_set_prop e_set e_prop] in *. rewrite He, Hip in *. destruct H as (b & ->).
    unfold InitImuBias in E1. destruct (negb (ip_static ip)); [injection E1 as <-; exists b; reflexivity|]. destruct (size_lt _ _).
    + destruct (ip_queue ip) as [|x q] eqn:Eq; injection E1 as <-; [exists b; rewrite Eq; reflexivity|]. exists (b ++ [x]). cbn. rewrite <- app_assoc. reflexivity.
    + apply bind_inv in E1. destruct E1 as (u & _ & E1). injection E1 as <-. exists b. reflexivity.
  - (* OInitState *) destruct HA as [He _]. pose proof (init_prop _ _ _ _ _ HE He Hip E) as HI. unfold at_sample, imu_queue in *. rewrite He, Hip in H. destruct H as (b & ->).
    destruct (ip_queue ip) as [|m q] eqn:Eq; destruct HI as [-> ->].
    + exists b. rewrite Eq. reflexivity.
    + eexists _, m. split; [reflexivity|]. split; [reflexivity|]. exists b. reflexivity.
  - (* RunOnce *) cbn in HA. destruct (run_prop e l e' ip E Hip) as (ip' & A1 & A2 & A3). unfold at_sample in *. rewrite A1, A2, HA in *. destruct H as (ip0 & m & B1 & B2 & B3). rewrite Hip in B1. injection B1 as <-.
    exists ip'. destruct (ip_queue ip) as [|x q] eqn:Eq.
    + subst ip'. exists m. rewrite Eq. auto.
    + exists x. split; [reflexivity|]. subst ip'. split; [reflexivity|]. cbn. destruct B3 as (b & ->). exists (b ++ [m]). rewrite <- app_assoc. reflexivity.
  - unfold Clear in E. rewrite Hip in E. cbn [of_opt bind e_logger e_set e_names e_count] in E. unfold at_sample, imu_queue. destruct (e_logger e); [destruct (e_names e)|]; injection E as <-; cbn; exists hist; rewrite app_nil_r; reflexivity.
Qed.
Lemma at_run : forall os hist e e', est_ok (imus os) e -> protocol e os -> est_run e os = Ok e' -> at_sample hist e -> at_sample (hist ++ imus os) e'.
Proof.
  induction os as [|o os IH]; intros hist e e' HE HP E H.
  { injection E as <-. cbn. rewrite app_nil_r. exact H. }
  rewrite imus_cons in HE |- *. destruct HP as [HA HP]. cbn [est_run foldM] in E. destruct (est_step e o) as [e1|] eqn:E1; [|discriminate]. cbn [bind] in E.
  destruct (step_safe _ _ _ HE HA) as [(e2 & E2 & HE2)|[E2 _]]; [|congruence]. rewrite E1 in E2. injection E2 as <-.
  rewrite app_assoc. apply (IH _ e1); auto. eapply at_step; eauto.
Qed.
Lemma reach_at f os e : reachable f os e -> at_sample (imus os) e.
Proof.
  intros (HC & HS & HP & HR). apply (at_run os [] (build f) e); [apply build_ok; auto|exact HP|exact HR|]. rewrite build_eq. exists []. reflexivity.
Qed.
(** one iteration, with the sample named *)
Lemma thm_iteration_sample f os e l e' : reachable f os e -> e_enabled e = true -> est_step e (ORunOnce l) = Ok e' ->
  exists s1 tp,
    (imu_queue e = [] -> s1 = e_state e) /\
    (imu_queue e <> [] -> exists m K t0 fresh Phi, in_turn (imus os) m (imu_queue e) /\ predicted f m (e_state e) s1 K t0 fresh Phi) /\
    stprop s1 = Some tp /\
    corrected (f_err f) tp (f_corrs f) (e_corrs e) l (e_heap e) s1 (e_corrs e') (e_heap e') (e_state e').
Proof.
  intros HR HA E. pose proof (reach_at _ _ _ HR) as HT. unfold at_sample in HT. rewrite HA in HT. destruct HT as (ip & m & T1 & T2 & T3).
  destruct (thm_iteration f os e l e' HR HA E) as (s1 & tp & A1 & A2 & A3 & A4). exists s1, tp. split; [exact A1|]. split; [|auto].
  intros Hq. destruct (A2 Hq) as (ip0 & m0 & K & t0 & fr & Phi & B1 & B2 & B3). rewrite T1 in B1. injection B1 as <-. rewrite T2 in B2. injection B2 as <-.
  exists m, K, t0, fr, Phi. split; [|exact B3]. unfold imu_queue. rewrite T1. exact T3.
Qed.

(** ** the biases at the start *)
Definition calI (f : config) (hist : list imu) (e : est) : Prop :=
  exists ip, e_prop e = Some ip /\ ip_conf f ip /\ cal f hist ip /\ (e_enabled e = true -> ip_bias_init ip = true).
Lemma cal_more f hist ip x : cal f hist ip -> cal f (hist ++ x) (set_queue ip (ip_queue ip ++ x)).
Proof.
  unfold cal. destruct (dflt (c_static (f_imu f)) true); [|auto]. intros (used & rest & A1 & A2 & A3 & A4 & A5). exists used, (rest ++ x). cbn. subst hist.
  split; [rewrite app_assoc; reflexivity|]. split; [exact A2|]. split; [exact A3|]. split; [|exact A5]. intros B. rewrite A4; auto.
Qed.
Lemma cal_step f hist fut e o e' : config_ok f -> est_ok (op_imu o ++ fut) e -> allowed e o -> est_step e o = Ok e' -> o <> OClear -> calI f hist e -> calI f (hist ++ op_imu o) e'.
Proof.
  intros HC HE HA E HN (ip & Hip & CF & HCal & HB). pose proof (prop_frame _ _ _ E) as EP. pose proof (enabled_step _ _ _ E) as ES.
  destruct o; cbn [op_imu] in *; rewrite ?app_nil_r; try (destruct ES as [_ ES]; exists ip; rewrite EP, ES; auto; fail); cbn [est_step] in E.
  - rewrite Hip in E. cbn [of_opt bind] in E. injection E as <-. exists (set_queue ip (ip_queue ip ++ [m])). split; [reflexivity|]. split; [exact CF|]. split; [apply cal_more; exact HCal|exact HB].
  - destruct HA as [He HA]. unfold BiasInitialized in HA. rewrite Hip in HA. cbn [of_opt bind] in HA. assert (ip_bias_init ip = false) as HB0 by congruence.
    unfold InitBias in E. rewrite Hip in E. cbn [of_opt bind] in E. destruct (InitImuBias ip) as [ip'|] eqn:E1; [|discriminate]. cbn [bind] in E. injection E as <-.
    assert (ip_conf f ip') as CF' by (unfold ip_conf in *; rewrite (InitBias_fixed _ _ E1); exact CF).
    exists ip'. split; [reflexivity|]. split; [exact CF'|]. split; [apply (cal_init f hist ip ip'); auto|]. cbn. congruence.
  - destruct HA as [He HA]. unfold BiasInitialized in HA. rewrite Hip in HA. cbn [of_opt bind] in HA. assert (ip_bias_init ip = true) as HB0 by congruence.
    pose proof (init_prop _ _ _ _ _ HE He Hip E) as HI. destruct (ip_queue ip) as [|m q] eqn:Eq; destruct HI as [A1 A2].
    + exists ip. auto.
    + eexists. split; [exact A2|]. split; [exact CF|]. split; [|auto]. apply (cal_ext f hist ip); auto. congruence.
  - cbn in HA. destruct (run_prop e l e' ip E Hip) as (ip' & A1 & A2 & A3). exists ip'. split; [exact A1|]. specialize (HB HA).
    destruct (ip_queue ip) as [|x q] eqn:Eq; subst ip'; [auto|]. split; [exact CF|]. split; [|auto]. apply (cal_ext f hist ip); auto. congruence.
  - congruence.
Qed.
Lemma cal_runs f : config_ok f -> forall os hist e e', est_ok (imus os) e -> protocol e os -> est_run e os = Ok e' -> ~ In OClear os -> calI f hist e -> calI f (hist ++ imus os) e'.
Proof.
  intros HC. induction os as [|o os IH]; intros hist e e' HE HP E HN H.
  { injection E as <-. cbn. rewrite app_nil_r. exact H. }
  rewrite imus_cons in HE |- *. destruct HP as [HA HP]. cbn [est_run foldM] in E. destruct (est_step e o) as [e1|] eqn:E1; [|discriminate]. cbn [bind] in E.
  destruct (step_safe _ _ _ HE HA) as [(e2 & E2 & HE2)|[E2 _]]; [|congruence]. rewrite E1 in E2. injection E2 as <-.
  rewrite app_assoc. apply (IH _ e1); auto.
  - intros Hi. apply HN. right. exact Hi.
  - eapply cal_step; eauto. intros ->. apply HN. left. reflexivity.
Qed.
Lemma thm_initial_biases f os e l e' : reachable f os e -> ~ In OClear os -> allowed e (OInitState l) -> est_step e (OInitState l) = Ok e' -> e_enabled e' = true ->
  starts_with f (imus os) (gbias (e_state e')) (abias (e_state e')).
Proof.
  intros HR HN HA E He'. pose proof (reach_ok _ _ _ HR) as HE. destruct HR as (HC & HS & HP & HR).
  destruct (cal_runs f HC os [] (build f) e) as (ip & Hip & CF & HCal & HB); auto.
  { apply build_ok; auto. }
  { rewrite build_eq. eexists. split; [reflexivity|]. split; [reflexivity|]. split; [|discriminate]. unfold cal. cbn [ip_vec ip_bias_init ip_queue ip_bg0 ip_ba0 ImuPropagation].
    destruct (dflt (c_static (f_imu f)) true); [|auto]. exists [], []. cbn. split; [reflexivity|]. split; [reflexivity|]. split; [lia|]. split; [auto|discriminate]. }
  destruct HA as [He HA]. unfold BiasInitialized in HA. rewrite Hip in HA. cbn [of_opt bind] in HA. assert (ip_bias_init ip = true) as HB0 by congruence.
  cbn [est_step] in E. pose proof (InitState_spec [] e l ip e' HE He Hip E) as HI. destruct (ip_queue ip) as [|m q]; [subst e'; cbn in He'; congruence|].
  destruct HI as (us & _ & _ & _ & _ & _ & _ & _ & _ & _ & G1 & G2 & _). rewrite G1, G2. cbn [app] in HCal. unfold cal in HCal. unfold starts_with.
  destruct (dflt (c_static (f_imu f)) true); [|exact HCal]. destruct HCal as (used & rest & A1 & A2 & A3 & A4 & A5). destruct (A5 HB0) as (B1 & B2 & B3).
  assert (firstn (calib_window f) (imus os) = used) as ->. { rewrite A1, <- B1, firstn_app, Nat.sub_diag, firstn_O, app_nil_r. apply firstn_all. }
  auto.
Qed.
