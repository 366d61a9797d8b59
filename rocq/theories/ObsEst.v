(** Proofs: C76 for the whole estimator. *)
From Coq Require Import Reals ZArith List Bool Arith Lia Lra.
From Verif Require Import Res Vec3 Mat MatInv Psd Spec LieGroup LieSO3 LieSEK RobotState StateProofs StateHist Inekf SpecFilter InekfProofs InekfThms Blk Imu Propagation SpecProp
  PropagationProofs PropagationThms PropagationLog ImuRest ImuThms ImuNeg Queue VelCorr LegCorr SpecCorr VelThms PsdBlk LegThms LegAdd LegLoop LegUpd LegHist Estimator SpecEst EstInv EstSafe EstPub EstHist EstTime
  ConvLeg ConvFilter ConvEst SpecObs Obs.
Import ListNotations.
Local Open Scope R_scope.

Section Floor.
Variables (w : R) (a : V3) (c : R).

Lemma unc_K K e s : wf K s -> uncertain e s w a c <-> variance_floor (right_cov K e s) (world_move K w a) c.
Proof. intros [[X1 X2 _ _] _ _ _ _]. unfold uncertain. cbv zeta. rewrite X2. replace (3 + K - 3)%nat with K by lia. tauto. Qed.
Lemma unc_right s : uncertain LeftInvariant s w a c <-> uncertain RightInvariant (in_right s) w a c.
Proof. unfold uncertain, in_right, as_right, dimX. cbv zeta. cbn [right_cov sP set_P sX]. tauto. Qed.

(** ** velocity *)
Lemma vel_update_unc K vc m s s' : wfp K s -> vel_noise_ok vc -> vel_update vc m s = Ok s' -> uncertain (vc_err vc) s w a c -> uncertain (vc_err vc) s' w a c.
Proof.
  intros W HN E F. rewrite (vel_update_eq K) in E by auto. destruct W as [W HK Hty HQ1 HQ2].
  assert (wf K (set_time s (vm_t m))) as W' by (destruct W; split; auto).
  destruct (thm_right_group _ _ _ _ _ _ _ _ W' (vel_measurement K _ _ _) E) as [W2 _].
  apply (unc_K K _ _ W2). eapply (correct_floor K 3); [exact W'|apply vel_measurement| | |exact E|].
  - apply pd_psd, pd_rot; [apply W|exact HN].
  - apply vel_H_move. exact HK.
  - apply (unc_K K _ _ W) in F. destruct (vc_err vc); exact F.
Qed.
Lemma vel_Correct_unc K vc s sched b vc' s' : wfp K s -> vel_noise_ok vc -> vel_Correct vc s sched = Ok (b, vc', s') -> uncertain (vc_err vc) s w a c -> uncertain (vc_err vc) s' w a c.
Proof.
  intros W HN E F. destruct (vel_Correct_spec _ _ _ _ _ _ E) as (Ec & f & _ & _ & _ & G). destruct (f_used f) as [m|].
  - destruct G as [_ G]. exact (vel_update_unc K vc m s s' W HN G F).
  - destruct G as [_ ->]. exact F.
Qed.

(** ** legs, right-invariant *)
Lemma removes_unc : forall rem lc h s ids h' s' m', tracks lc h s ids -> NoDup rem -> (forall id, In id rem -> lc_map lc id <> None) ->
  foldM remove_leg (h, s, lc_map lc) rem = Ok (h', s', m') -> uncertain RightInvariant s w a c -> uncertain RightInvariant s' w a c.
Proof.
  induction rem as [|id rem IH]; intros lc h s ids h' s' m' T ND Hin E F; cbn [foldM] in E.
  { injection E as <- <- <-. exact F. }
  inversion ND; subst. destruct (lc_map lc id) as [x|] eqn:Ex; [|exfalso; apply (Hin id); [left; auto|auto]].
  destruct (remove_leg_ok lc h s ids id x T Ex) as (h1 & s1 & E1 & T1 & _ & P1 & _). destruct (tracks_contact lc h s ids id x T Ex) as (_ & E2 & _).
  rewrite E1 in E. cbn [bind] in E.
  apply (IH (lc_set_map lc (mupd (lc_map lc) id None)) h1 s1 _ h' s' m' T1); auto.
  - intros y Hy. cbn [lc_map lc_set_map]. unfold mupd. destruct (Nat.eqb_spec y id); [subst; tauto|]. apply Hin. right. exact Hy.
  - pose proof (tr_wf _ _ _ _ T) as [W HK _ _ _]. pose proof (tr_wf _ _ _ _ T1) as [W1 _ _ _ _]. rewrite remove_nth_length in W1 by auto.
    apply (unc_K _ _ _ W1). apply (unc_K _ _ _ W) in F. cbn [right_cov] in *. rewrite P1.
    destruct (length ids) as [|n] eqn:En; [lia|]. replace (2 + (S n - 1))%nat with (2 + n)%nat in * by lia. change (2 + S n)%nat with (S (2 + n)) in *.
    apply drop_floor; [lia|apply W|apply W|exact F].
Qed.
Lemma adds_unc : forall new lc h s ids h' s' m' P', tracks lc h s ids -> lc_err lc = RightInvariant -> NoDup (map nid new) ->
  (forall id, In id (map nid new) -> lc_map lc id = None) -> (forall n, In n new -> psd (ofM3 (snd n))) ->
  foldM (add_leg lc) (h, s, lc_map lc, sP s) new = Ok (h', s', m', P') -> uncertain RightInvariant s w a c -> uncertain RightInvariant s' w a c.
Proof.
  induction new as [|[[id f] N] new IH]; intros lc h s ids h' s' m' P' T He ND Hin HN E F; cbn [foldM] in E.
  { injection E as <- <- <- <-. exact F. }
  cbn [map nid fst] in ND, Hin. inversion ND; subst.
  destruct (add_leg_ok lc h s ids id f N T (Hin id (or_introl eq_refl))) as (h1 & s1 & E1 & T1 & _ & P1 & _).
  rewrite E1 in E. cbn [bind] in E.
  apply (IH (lc_set_map lc (mupd (lc_map lc) id (Some (length h)))) h1 s1 _ h' s' m' P' T1); auto.
  - intros y Hy. cbn [lc_map lc_set_map]. unfold mupd. destruct (Nat.eqb_spec y id); [subst; tauto|]. apply Hin. right. exact Hy.
  - intros n Hn. apply HN. right. exact Hn.
  - pose proof (tr_wf _ _ _ _ T) as [W HK _ _ _]. pose proof (tr_wf _ _ _ _ T1) as [W1 _ _ _ _]. rewrite app_length in W1. cbn [length] in W1.
    replace (2 + (length ids + 1))%nat with (S (2 + length ids)) in W1 by lia.
    apply (unc_K _ _ _ W1). apply (unc_K _ _ _ W) in F. cbn [right_cov] in *. rewrite P1, He.
    apply aug_floor; [exact HK|apply W|apply W| |exact F]. apply (HN (id, f, N)). left. reflexivity.
Qed.
Lemma feet_range lc h s ids legs f : tracks lc h s ids -> In f (feet lc h 0 legs) -> (2 + ft_k f < 2 + length ids)%nat.
Proof.
  intros T Hf. destruct (feet_in _ _ _ _ _ Hf) as (i & o & _ & _ & _ & E & _). unfold contact_of in E. destruct (lc_map lc i) as [x|] eqn:Ex; [|discriminate].
  destruct (tracks_contact lc h s ids i x T Ex) as (E1 & E2 & _). unfold contact_of in E1. rewrite Ex in E1. rewrite E1 in E. injection E as <-. lia.
Qed.
Lemma corrected_unc lc h m s ids s1 : tracks lc h s ids -> leg_noise_ok lc -> leg_corrected (2 + length ids) lc h m s s1 ->
  uncertain (lc_err lc) s w a c -> uncertain (lc_err lc) s1 w a c.
Proof.
  intros T HN HC F. pose proof (tr_wf _ _ _ _ T) as [W HK _ _ _].
  assert (wf (2 + length ids) (set_time s (lm_t m))) as W' by (destruct W; split; auto).
  red in HC. cbv zeta in HC. destruct (Nat.eqb (length (feet lc h 0 (lm_legs m))) 0).
  - subst s1. apply (unc_K _ _ _ W'). apply (unc_K _ _ _ W) in F. destruct (lc_err lc); exact F.
  - destruct (thm_right_group _ _ _ _ _ _ _ _ W' (leg_measurement _ _ _) HC) as [W2 _]. apply (unc_K _ _ _ W2).
    eapply correct_floor; [exact W'|apply leg_measurement| | |exact HC|].
    + apply pd_psd, leg_N_pd; [apply W|apply HN].
    + apply leg_H_move; [exact HK|]. intros f Hf. eapply feet_range; eauto.
    + apply (unc_K _ _ _ W) in F. destruct (lc_err lc); exact F.
Qed.
Lemma leg_update_unc_right lc h m s ids c' h' s' : tracks lc h s ids -> leg_noise_ok lc -> lc_err lc = RightInvariant ->
  leg_update lc h m s = Ok (c', h', s') -> uncertain RightInvariant s w a c -> uncertain RightInvariant s' w a c.
Proof.
  intros T HN He E F. pose proof E as E0. destruct (leg_update_inv _ _ _ _ _ _ _ _ T E) as (s1 & ids' & m' & _ & HC & _).
  rewrite (leg_update_eq lc h m s ids T) in E0. cbv zeta in E0.
  assert (uncertain RightInvariant s1 w a c) as F1 by (rewrite <- He in *; eapply corrected_unc; eauto).
  destruct (corrected_tracks lc h m s s1 ids T HC) as [T1 _].
  assert ((if Nat.eqb (length (feet lc h 0 (lm_legs m))) 0 then Ok (set_time s (lm_t m))
     else CorrectRightInvariant (leg_Z (sX s) (feet lc h 0 (lm_legs m))) (leg_H (2 + length ids) (feet lc h 0 (lm_legs m))) (leg_N (sX s) (feet lc h 0 (lm_legs m))) (set_time s (lm_t m)) (lc_err lc)) = Ok s1) as ES.
  { red in HC. cbv zeta in HC. destruct (Nat.eqb _ 0); congruence. }
  rewrite ES in E0. cbn [bind] in E0.
  destruct (remove_legs_carried lc (removed lc 0 (lm_legs m)) h s1 ids T1 (removed_nodup _ _ _)) as (h2 & s2 & m2 & ids2 & G1 & G2 & G3 & _).
  { intros id Hid. apply removed_spec in Hid. destruct Hid as (? & _ & _ & _ & H). exact H. }
  rewrite G1 in E0. cbn [bind] in E0.
  assert (uncertain RightInvariant s2 w a c) as F2.
  { eapply removes_unc; [exact T1|apply removed_nodup| |exact G1|exact F1].
    intros id Hid. apply removed_spec in Hid. destruct Hid as (? & _ & _ & _ & H). exact H. }
  apply bind_inv in E0. destruct E0 as ([[[h3 s3] m3] P3] & E3 & E0). injection E0 as <- <- <-.
  eapply (adds_unc (added lc 0 (lm_legs m)) (lc_set_map lc m2) h2 s2 ids2); [exact G3|exact He|apply added_nodup| | |exact E3|exact F2].
  - intros id Hid. apply added_spec in Hid. destruct Hid as (? & _ & _ & _ & H). cbn [lc_map lc_set_map]. rewrite G2. unfold mupds. rewrite H. destruct (in_dec _ _ _); reflexivity.
  - intros n Hn. destruct (added_cov _ _ _ _ Hn) as [x ->]. apply pd_psd, kin_cov_pd, HN.
Qed.
Lemma leg_Correct_unc_right lc h s ids sched b c' h' s' : tracks lc h s ids -> leg_noise_ok lc -> lc_err lc = RightInvariant ->
  leg_Correct lc h s sched = Ok (b, c', h', s') -> uncertain RightInvariant s w a c -> uncertain RightInvariant s' w a c.
Proof.
  intros T HN He E F. destruct (leg_Correct_spec _ _ _ _ _ _ _ _ E) as (f & _ & _ & _ & G). destruct (f_used f) as [m|].
  - destruct G as [_ (q & E1 & _)]. eapply (leg_update_unc_right (lc_set_queue lc q)); [apply tracks_queue; exact T|exact HN|exact He|exact E1|exact F].
  - destruct G as (_ & _ & _ & ->). exact F.
Qed.
Lemma leg_Correct_unc lc h s ids sched b c' h' s' : tracks lc h s ids -> psd (sP s) -> leg_noise_ok lc ->
  leg_Correct lc h s sched = Ok (b, c', h', s') -> uncertain (lc_err lc) s w a c -> uncertain (lc_err lc) s' w a c.
Proof.
  intros T HP HN E F. destruct (lc_err lc) eqn:He; [|eapply leg_Correct_unc_right; eauto].
  apply unc_right. apply unc_right in F. pose proof (leg_Correct_conv lc h s ids sched T HP HN He) as EC. rewrite E in EC. cbn [rmap] in EC.
  eapply leg_Correct_unc_right; [apply tracks_with, tracks_conv; exact T| | |exact EC|exact F]; [exact HN|reflexivity].
Qed.

(** ** propagation *)
Lemma Propagate_unc_right K ip s tp m b ip' s' : wfp K s -> stprop s = Some tp -> noise_ok ip -> contact_noise K (sQc s) -> ip_prev ip = Some m -> tp <= i_t m ->
  ip_err ip = RightInvariant -> Propagate ip s = Ok (b, ip', s') -> uncertain RightInvariant s w a c -> uncertain RightInvariant s' w a c.
Proof.
  intros W Ht HN HC Hm Hle He E F. unfold Propagate in E. destruct (ip_queue ip) as [|x q] eqn:Eq; [injection E as <- <- <-; exact F|].
  rewrite Hm in E. cbn [of_opt bind] in E. apply bind_inv in E. destruct E as (s1 & E1 & E). injection E as <- <- <-.
  destruct (step_wfp _ _ _ _ _ _ W Ht E1) as (W' & _). apply (unc_K K _ _ (wp_wf _ _ W')). apply (unc_K K _ _ (wp_wf _ _ W)) in F. cbn [right_cov] in *.
  rewrite (step_eq K _ m s tp W Ht) in E1. injection E1 as <-. cbn [sP]. apply prop_floor; auto. lra.
Qed.
Lemma Propagate_unc K ip s tp m b ip' s' : wfp K s -> stprop s = Some tp -> noise_ok ip -> contact_noise K (sQc s) -> ip_prev ip = Some m -> tp <= i_t m ->
  Propagate ip s = Ok (b, ip', s') -> uncertain (ip_err ip) s w a c -> uncertain (ip_err ip) s' w a c.
Proof.
  intros W Ht HN HC Hm Hle E F. destruct (ip_err ip) eqn:He; [|eapply Propagate_unc_right; eauto].
  apply unc_right. apply unc_right in F. pose proof (Propagate_conv K ip s tp W Ht He) as EC. rewrite E in EC. cbn [rmap] in EC.
  eapply (Propagate_unc_right K (set_err ip RightInvariant) (in_right s) tp m); [apply in_right_wfp; exact W|exact Ht|exact HN| |exact Hm|exact Hle|reflexivity|exact EC|exact F].
  exact HC.
Qed.

(** ** the estimator *)
Definition c_err (c : corr_obj) : error_type := match c with CVel c => vc_err c | CLeg c => lc_err c end.
Definition err_is (er : error_type) (e : est) : Prop := (forall ip, e_prop e = Some ip -> ip_err ip = er) /\ Forall (fun c => c_err c = er) (e_corrs e).
Lemma err_step er e o e' : err_is er e -> est_step e o = Ok e' -> err_is er e'.
Proof.
  intros [H1 H2] E. destruct (step_fixed _ _ _ E) as (_ & F1 & F2). split.
  - intros ip Hip. rewrite Hip in F2. destruct (e_prop e) as [ip0|]; [|discriminate]. cbn [option_map] in F2.
    assert (ip_fixed ip = ip_fixed ip0) as F by congruence. rewrite <- (H1 ip0 eq_refl). change (ip_err ip) with (fst (fst (fst (fst (fst (fst (fst (fst (ip_fixed ip))))))))).
    rewrite F. reflexivity.
  - revert F1. generalize (e_corrs e'). intros cs'. revert H2. generalize (e_corrs e). intros cs. revert cs'.
    induction cs as [|x cs IH]; intros [|c' cs'] H2 F1; try discriminate; constructor; cbn [map] in F1; inversion H2; subst.
    + assert (c_fixed c' = c_fixed x) as F by congruence. destruct x, c'; cbn in *; try discriminate; congruence.
    + apply IH; auto. congruence.
Qed.
Lemma err_build f : err_is (f_err f) (build f).
Proof.
  rewrite build_eq. split.
  - intros ip. cbn. intros [= <-]. reflexivity.
  - cbn [e_corrs e_set_corrs e_set]. apply Forall_map. apply Forall_forall. intros [g|g] _; reflexivity.
Qed.
Lemma correct_all_unc er : forall cs ctx h s l tp t b cs' h' s', (n_leg cs + n_ctx ctx <= 1)%nat -> Forall corr_noise cs -> Forall (fun c => c_err c = er) cs ->
  core (pick ctx cs) h s -> stprop s = Some tp -> st s = Some t -> correct_all cs h s l = Ok (b, cs', h', s') -> uncertain er s w a c -> uncertain er s' w a c.
Proof.
  induction cs as [|x cs IH]; intros ctx h s l tp t b cs' h' s' Hl HN HL HC Ht Hs E F; cbn [correct_all] in E.
  { injection E as <- <- <- <-. exact F. }
  inversion HN as [|y z HNc HNs]; subst. inversion HL as [|y z HLc HLs]; subst. pose proof HC as (ids & C & HP & _). destruct x as [vc|lc]; cbn [corr_Correct c_err] in *.
  - destruct (vel_step _ h vc s (a_vel (hd_arr l)) tp t HC HNc Ht Hs) as (b1 & c1 & s1 & t1 & E1 & C1 & N1 & T1 & S1). rewrite E1 in E. cbn [bind] in E.
    destruct (correct_all cs h s1 (tl_arr l)) as [[[[b2 cs2] h2] s2]|] eqn:E2; [|discriminate]. cbn [bind] in E. injection E as <- <- <- <-.
    refine (IH ctx h s1 (tl_arr l) tp t1 b2 cs2 h2 s2 _ _ _ _ T1 S1 E2 _); auto.
    eapply vel_Correct_unc; [eapply contacts_wfp; exact C|exact HNc|exact E1|exact F].
  - assert (ctx = None /\ n_leg cs = 0%nat) as [-> L0].
    { unfold n_leg in Hl. cbn in Hl. destruct ctx; cbn in Hl; [lia|]. split; [reflexivity|]. unfold n_leg. lia. }
    cbn [pick leg_of] in HC, C.
    destruct (leg_step lc h s (a_leg (hd_arr l)) tp t HC HNc Ht Hs) as (b1 & c1 & h1 & s1 & t1 & E1 & C1 & N1 & T1 & S1). rewrite E1 in E. cbn [bind] in E.
    destruct (correct_all cs h1 s1 (tl_arr l)) as [[[[b2 cs2] h2] s2]|] eqn:E2; [|discriminate]. cbn [bind] in E. injection E as <- <- <- <-.
    refine (IH (Some c1) h1 s1 (tl_arr l) tp t1 b2 cs2 h2 s2 _ _ _ _ T1 S1 E2 _); auto; [rewrite L0; cbn; lia|].
    eapply leg_Correct_unc; [exact C|exact HP|exact HNc|exact E1|exact F].
Qed.
Lemma run_once_unc er fut e l e' : est_ok fut e -> err_is er e -> e_enabled e = true -> RunOnce e l = Ok e' ->
  uncertain er (e_state e) w a c -> uncertain er (e_state e') w a c.
Proof.
  intros HE [HL1 HL2] HA E F. pose proof HE as [(ip & Hip & HN & HCal & HS & HRun) Hno Hle Hsl Hcov Hon Hoff Hpub].
  destruct (HRun HA) as (tp & t & m & R1 & R2 & R3 & R4). cbn [map nondec] in R4. destruct R4 as [R4 R5].
  unfold RunOnce in E. rewrite Hip in E. cbn [of_opt bind] in E. pose proof (Hon HA) as HC. pose proof HC as (ids & C & HP & HQ). pose proof (contacts_wfp _ _ _ _ C) as W.
  destruct (prop_step _ (e_heap e) ip (e_state e) tp m HC R1 HN R3 R4) as (b & ip' & s1 & E1 & C1 & EQ). rewrite E1 in E. cbn [bind] in E.
  assert (uncertain er s1 w a c) as F1.
  { rewrite <- (HL1 _ Hip) in *. eapply Propagate_unc; eauto. }
  assert (exists tp1 t1, stprop s1 = Some tp1 /\ st s1 = Some t1) as (tp1 & t1 & T1 & T2).
  { destruct (ip_queue ip) as [|x q] eqn:Eq.
    - destruct EQ as (_ & -> & ->). eauto.
    - destruct EQ as (_ & -> & A1 & A2). eauto. }
  destruct (correct_all (e_corrs e) (e_heap e) s1 l) as [[[[b2 cs] h] s2]|] eqn:E2; [|discriminate]. cbn [bind] in E. rewrite Hsl in E.
  assert (uncertain er s2 w a c) as F2.
  { eapply (correct_all_unc er (e_corrs e) None (e_heap e) s1 l tp1 t1); [cbn; lia|exact Hno|exact HL2|exact C1|exact T1|exact T2|exact E2|exact F1]. }
  destruct (b || b2); cbn [bind] in E; injection E as <-; exact F2.
Qed.
Lemma enabled_step e o e' : est_step e o = Ok e' -> match o with OInitState _ | ORunOnce _ | OClear => True | _ => e_state e' = e_state e /\ e_enabled e' = e_enabled e end.
Proof.
  destruct o; cbn [est_step]; auto; intros E.
  - destruct (e_prop e); [|discriminate]. cbn [of_opt bind] in E. injection E as <-. auto.
  - injection E as <-. auto.
  - injection E as <-. auto.
  - unfold InitBias in E. destruct (e_prop e); [|discriminate]. cbn [of_opt bind] in E. destruct (InitImuBias i); [|discriminate]. cbn [bind] in E. injection E as <-. auto.
  - injection E as <-. auto.
  - injection E as <-. unfold LogPop. destruct (e_pending e); auto. destruct (e_logq e); auto.
  - unfold LogWrite in E. destruct (e_pending e); [|injection E as <-; auto]. destruct (get_time r); [|discriminate]. cbn [bind] in E. destruct (e_logger e && _).
    + repeat (apply bind_inv in E; destruct E as (? & _ & E)). injection E as <-. auto.
    + injection E as <-. auto.
Qed.
(** from any moment of a running estimator on, until clear() *)
Lemma run_unc er : forall os e e', est_ok (imus os) e -> err_is er e -> protocol e os -> ~ In OClear os -> est_run e os = Ok e' -> e_enabled e = true ->
  uncertain er (e_state e) w a c -> e_enabled e' = true /\ uncertain er (e_state e') w a c.
Proof.
  induction os as [|o os IH]; intros e e' HE HR HP HNC E He F.
  { injection E as <-. auto. }
  rewrite imus_cons in HE. destruct HP as [HA HP]. cbn [est_run foldM] in E. destruct (est_step e o) as [e1|] eqn:E1; [|discriminate]. cbn [bind] in E.
  destruct (step_safe _ _ _ HE HA) as [(e2 & E2 & HE2)|[E2 _]]; [|congruence]. rewrite E1 in E2. injection E2 as <-.
  assert (e_enabled e1 = true /\ uncertain er (e_state e1) w a c) as [He1 F1].
  { pose proof (enabled_step _ _ _ E1) as ES. destruct o; try (destruct ES as [-> ->]; split; assumption).
    all: try (exfalso; destruct HA as [HA _]; congruence).
    - cbn [est_step op_imu app] in E1, HE. split.
      + destruct (RunOnce_spec _ e l HE He) as (e2 & fs & bb & tp & A1 & A2 & A3 & A4 & A5 & A6 & A7 & A8 & A9 & _). congruence.
      + exact (run_once_unc er _ e l e1 HE HR He E1 F).
    - exfalso. apply HNC. left. reflexivity. }
  eapply (IH e1 e'); auto. eapply err_step; eauto. intros H. apply HNC. right. exact H.
Qed.
End Floor.
