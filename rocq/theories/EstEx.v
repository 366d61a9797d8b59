(** A concrete history of the estimator: non-vacuity and counterexamples. *)
From Coq Require Import Reals ZArith List Bool Arith Lia Lra.
From Verif Require Import Res Vec3 Mat MatInv Psd Spec LieGroup LieSO3 LieSEK RobotState StateProofs Inekf SpecFilter InekfThms Blk Imu Propagation SpecProp
  PropagationThms ImuRest ImuThms ImuNeg Queue VelCorr LegCorr SpecCorr VelThms PsdBlk LegThms LegUpd LegHist Estimator SpecEst EstInv EstSafe EstPub EstHist EstTime.
Import ListNotations.
Local Open Scope R_scope.

(** a usable past sample is applied *)
Lemma vel_run fut e c x tp : est_ok fut e -> e_enabled e = true -> e_corrs e = [CVel c] -> imu_queue e = [] ->
  stprop (e_state e) = Some tp -> vc_queue c = [x] -> tp - vc_thr c <= vm_t x -> vm_t x < tp ->
  exists e', RunOnce e [] = Ok e' /\ e_out e' = e_out e ++ [e_state e'] /\ st (e_state e') = Some (vm_t x).
Proof.
  intros HE HA Hc Hq Ht Hx H1 H2. destruct HE as [(ip & Hip & HN & HCal & HS & HRun) Hno Hle Hsl Hcov Hon Hoff Hpub].
  unfold imu_queue in Hq. rewrite Hip in Hq. unfold RunOnce. rewrite Hip. cbn [of_opt bind]. unfold Propagate. rewrite Hq. cbn [bind].
  rewrite Hc in *. cbn [correct_all corr_Correct hd_arr no_arr a_vel]. unfold vel_Correct. rewrite Hx. cbn [hd_batch tl_batch app concat].
  unfold get_propagate_time. rewrite Ht. cbn [of_opt bind]. unfold not_past. destruct (Rle_dec 0 (vm_t x - tp)); [lra|]. unfold too_old.
  destruct (Rlt_dec (vm_t x - tp) (- vc_thr c)); [lra|].
  destruct (Hon HA) as (ids & C & HP & _). pose proof (contacts_wfp _ _ _ _ C) as W. inversion Hno as [|y z N1 _]; subst.
  destruct (vel_update_total _ c x (e_state e) W HP N1) as (s' & E & _). rewrite E. cbn [bind orb]. rewrite Hsl. cbn [bind].
  destruct (vel_update_time _ _ _ _ _ W E) as [_ M']. destruct M' as (_ & _ & M1 & _). eexists. split; [reflexivity|]. cbn. split; [reflexivity|]. rewrite M1. reflexivity.
Qed.

(** *** the history: one velocity correction, calibration off, logger on at 10 Hz *)
Definition exI : imu_cfg := mkICfg (Some false) None None None None None None None None None None None.
Definition exE : est_cfg := mkECfg true None None None None None None.
Definition exF : config := mkCfg RightInvariant exE exI [GVel no_vcfg].
Definition exM (t : R) : imu := mkImu t (mkQ 1 0 0 0) vzero (mkV 0 0 9).
Definition exV (t : R) : vmeas := mkVM t (mkV 1 0 0).
Definition exPre : list op := [OInitBias; OImu (exM 1); OVel 0 (exV (8 / 10))].
Definition exOps : list op := exPre ++ [OInitState []; OImu (exM 2); ORunOnce []; OVel 0 (exV (9 / 10)); ORunOnce []].

Lemma exF_ok : config_ok exF.
Proof. split; [discriminate|]. split; [|cbn; lia]. repeat constructor. discriminate. Qed.
Lemma exStream : imu_stream (imus exOps).
Proof. split; [repeat constructor; unfold qnorm2; cbn; ring|]. cbn. lra. Qed.

Lemma step_init e l : est_step e (OInitState l) = InitState e l. Proof. reflexivity. Qed.
Lemma step_run e l : est_step e (ORunOnce l) = RunOnce e l. Proof. reflexivity. Qed.
Lemma fixed_thr a b : c_fixed (CVel a) = c_fixed (CVel b) -> vc_thr a = vc_thr b.
Proof. cbn. intros H. injection H. auto. Qed.
Definition exIp1 : imu_prop := match InitImuBias (ImuPropagation [] RightInvariant exI) with Ok ip => ip | Fail _ => ImuPropagation [] RightInvariant exI end.
Definition exIp2 : imu_prop := set_queue exIp1 [exM 1].
Definition exE1 : est := e_set_prop (build exF) exIp1.
Definition exE2 : est := e_set_prop exE1 exIp2.
Definition exC3 : vel_corr := vc_set_queue (VelocityCorrection [] RightInvariant no_vcfg) [exV (8 / 10)].
Definition exE3 : est := e_set_corrs exE2 [CVel exC3].
Lemma exP0 : e_prop (build exF) = Some (ImuPropagation [] RightInvariant exI). Proof. rewrite build_eq. reflexivity. Qed.
Lemma exC0 : e_corrs (build exF) = [CVel (VelocityCorrection [] RightInvariant no_vcfg)]. Proof. rewrite build_eq. reflexivity. Qed.
Lemma exN0 : e_enabled (build exF) = false. Proof. rewrite build_eq. reflexivity. Qed.
Lemma exS1 : est_step (build exF) OInitBias = Ok exE1.
Proof. cbn [est_step]. unfold InitBias. rewrite exP0. reflexivity. Qed.
Lemma exS2 : est_step exE1 (OImu (exM 1)) = Ok exE2.
Proof. reflexivity. Qed.
Lemma exC2 : e_corrs exE2 = [CVel (VelocityCorrection [] RightInvariant no_vcfg)].
Proof. change (e_corrs exE2) with (e_corrs (build exF)). apply exC0. Qed.
Lemma exS3 : est_step exE2 (OVel 0 (exV (8 / 10))) = Ok exE3.
Proof. cbn [est_step]. rewrite exC2. reflexivity. Qed.
Lemma exA1 : allowed (build exF) OInitBias.
Proof. split; [exact exN0|]. unfold BiasInitialized. rewrite exP0. reflexivity. Qed.
Lemma exA3 : allowed exE3 (OInitState []).
Proof. split; [|reflexivity]. change (e_enabled exE3) with (e_enabled (build exF)). exact exN0. Qed.
Lemma exR3 : est_run (build exF) exPre = Ok exE3.
Proof. unfold exPre, est_run. cbn [foldM]. rewrite exS1. cbn [bind]. rewrite exS2. cbn [bind]. rewrite exS3. reflexivity. Qed.
Lemma exH3 : est_ok [exM 2] exE3.
Proof.
  destruct (step_safe (imus exOps) (build exF) OInitBias (build_ok exF _ exF_ok exStream) exA1) as [(x & X1 & X2)|[X1 _]]; [|rewrite exS1 in X1; discriminate].
  rewrite exS1 in X1. injection X1 as <-. change (imus exOps) with (op_imu (OImu (exM 1)) ++ [exM 2]) in X2.
  destruct (step_safe [exM 2] exE1 (OImu (exM 1)) X2 I) as [(x & X1 & X3)|[X1 _]]; [|rewrite exS2 in X1; discriminate]. rewrite exS2 in X1. injection X1 as <-.
  destruct (step_safe [exM 2] exE2 (OVel 0 (exV (8 / 10))) X3 I) as [(x & X1 & X4)|[X1 _]]; [|rewrite exS3 in X1; discriminate]. rewrite exS3 in X1. injection X1 as <-. exact X4.
Qed.
Lemma exP3 : e_prop exE3 = Some exIp2. Proof. reflexivity. Qed.
Lemma exS4 : exists e4 c4, InitState exE3 [] = Ok e4 /\ est_ok [exM 2] e4 /\ e_enabled e4 = true /\ e_prop e4 = Some (set_prev (set_queue exIp2 []) (exM 1)) /\
  e_corrs e4 = [CVel c4] /\ vc_queue c4 = [] /\ vc_thr c4 = 3 / 10 /\ col (sX (e_state e4)) 0 = mkV 1 0 0.
Proof.
  destruct (step_safe [exM 2] exE3 (OInitState []) exH3 exA3) as [(e4 & S4 & H4)|[_ (l & L1 & L2)]].
  2:{ exfalso. injection L1 as <-. apply L2. cbn. split; [discriminate|exact I]. }
  pose proof S4 as S4'. rewrite step_init in S4'. pose proof (InitState_spec _ exE3 [] exIp2 e4 exH3 (proj1 exA3) exP3 S4') as I4. change (ip_queue exIp2) with [exM 1] in I4. cbv iota beta in I4.
  destruct I4 as (us & T & A1 & A2 & A3 & A4 & A5 & A6 & A7 & A8 & A9 & A10 & A11 & A12 & A13).
  change (e_corrs exE3) with [CVel exC3] in T.
  assert (exists c, e_corrs e4 = [CVel c] /\ vc_queue c = [] /\ vc_thr c = 3 / 10 /\ newest (concat us) = Some (Datatypes.inl (exV (8 / 10)))) as (c4 & C1 & C2 & C3 & C4).
  { destruct (step_fixed exE3 (OInitState []) e4 S4) as (_ & F & _). change (e_corrs exE3) with [CVel exC3] in F.
    destruct (e_corrs e4) as [|c' [|c'' cs]]; try discriminate. cbn [map] in F.
    assert (c_fixed c' = c_fixed (CVel exC3)) as F1 by congruence. clear F. destruct c' as [c'|c']; [|discriminate]. exists c'. split; [reflexivity|].
    destruct us as [|u us]; [contradiction|]. cbn [took_all] in T. destruct T as [[T1 T2] T3]. destruct us; [|contradiction].
    destruct u as [|x u]; [congruence|]. cbn in T1. injection T1 as <- T1. destruct u; [|discriminate]. cbn in T1. symmetry in T1. apply map_eq_nil in T1.
    split; [exact T1|]. split; [exact (fixed_thr _ _ F1)|reflexivity]. }
  rewrite C4 in A13. destruct A13 as [A13 A14]. exists e4, c4. split; [exact S4'|]. do 6 (split; [assumption|]).
  rewrite A13, A7. cbn. apply V3_eq; cbn; ring.
Qed.
Lemma exS6 e4 c4 : est_ok [exM 2] e4 -> e_enabled e4 = true -> e_prop e4 = Some (set_prev (set_queue exIp2 []) (exM 1)) ->
  e_corrs e4 = [CVel c4] -> vc_queue c4 = [] -> exists e5 e6 c6, est_step e4 (OImu (exM 2)) = Ok e5 /\ RunOnce e5 [] = Ok e6 /\ e_enabled e5 = true /\ est_ok [] e6 /\
  e_enabled e6 = true /\ e_out e6 = e_out e5 ++ [e_state e6] /\ st (e_state e6) = Some 1 /\ stprop (e_state e6) = Some 1 /\ imu_queue e6 = [] /\
  e_corrs e6 = [CVel c6] /\ vc_queue c6 = [] /\ vc_thr c6 = vc_thr c4.
Proof.
  intros H4 A1 A2 C1 C2. set (e5 := e_set_prop e4 (set_queue (set_prev (set_queue exIp2 []) (exM 1)) [exM 2])).
  assert (est_step e4 (OImu (exM 2)) = Ok e5) as S5 by (cbn [est_step]; rewrite A2; reflexivity).
  destruct (step_safe [] e4 (OImu (exM 2)) H4 I) as [(x & X1 & H5)|[X1 _]]; [|congruence]. rewrite S5 in X1. injection X1 as <-.
  assert (e_enabled e5 = true) as A5 by exact A1. assert (e_corrs e5 = [CVel c4]) as C5 by exact C1.
  assert (e_prop e5 = Some (set_queue (set_prev (set_queue exIp2 []) (exM 1)) [exM 2])) as P5 by reflexivity.
  assert (imu_queue e5 = [exM 2]) as Q5 by (unfold imu_queue; rewrite P5; reflexivity). clearbody e5.
  destruct (RunOnce_spec [] e5 [] H5 A5) as (e6 & fs & b & tp & B1 & B2 & B3 & B4 & B5 & B6 & B7 & B8 & B9 & B10 & B11 & B12 & B13).
  rewrite Q5 in *. assert (tp = 1) as ->. { destruct B12 as (ip & m & D1 & D2 & ->); [discriminate|]. rewrite P5 in D1. injection D1 as <-. cbn in D2. injection D2 as <-. reflexivity. }
  destruct b; [|exfalso; assert (false = true) by (apply B5; left; discriminate); discriminate]. cbn [pub_of] in B7.
  rewrite C5 in B3. destruct fs as [|f [|? ?]]; try (destruct (e_corrs e6) as [|? [|? ?]]; cbn in B3; tauto).
  destruct (e_corrs e6) as [|c6 [|? ?]] eqn:C6; cbn [turns_ok] in B3; try tauto. destruct B3 as [(B3 & _ & _) _]. cbn in B3. rewrite C2 in B3. cbn in B3.
  assert (f_used f = None /\ queued c6 = []) as [U6 Q6].
  { destruct f as [d u]. unfold consumed in B3. cbn in *. destruct d; [|discriminate]. destruct u; [discriminate|]. auto. }
  assert (est_step e5 (ORunOnce []) = Ok e6) as B1' by (rewrite step_run; exact B1). destruct (step_fixed e5 (ORunOnce []) e6 B1') as (_ & F & _). rewrite C6, C5 in F. cbn [map] in F. assert (c_fixed c6 = c_fixed (CVel c4)) as F1 by congruence.
  destruct c6 as [c6|c6]; [|discriminate].
  assert (est_ok [] e6) as H6. { destruct (step_safe [] e5 (ORunOnce []) H5 A5) as [(x & X1 & H6)|[X1 _]]; rewrite step_run, B1 in X1; [|discriminate]. injection X1 as <-. exact H6. }
  exists e5, e6, c6. do 6 (split; [assumption|]). split. { cbn [last_used] in B13. rewrite U6 in B13. exact B13. }
  split; [exact B2|]. split; [exact B4|]. split; [exact C6|]. split; [cbn in Q6; apply map_eq_nil in Q6; exact Q6|]. exact (fixed_thr _ _ F1).
Qed.
Lemma ex_states : exists e4 e5 e6 e7 e8,
  est_run (build exF) exPre = Ok exE3 /\ InitState exE3 [] = Ok e4 /\ est_step e4 (OImu (exM 2)) = Ok e5 /\ RunOnce e5 [] = Ok e6 /\
  est_step e6 (OVel 0 (exV (9 / 10))) = Ok e7 /\ RunOnce e7 [] = Ok e8 /\
  e_enabled e4 = true /\ e_enabled e5 = true /\ e_enabled e7 = true /\
  e_out e6 = e_out e5 ++ [e_state e6] /\ e_out e8 = e_out e7 ++ [e_state e8] /\ st (e_state e6) = Some 1 /\ st (e_state e8) = Some (9 / 10) /\
  col (sX (e_state e4)) 0 = mkV 1 0 0.
Proof.
  destruct exS4 as (e4 & c4 & S4 & H4 & A1 & A2 & C1 & C2 & C3 & V).
  destruct (exS6 e4 c4 H4 A1 A2 C1 C2) as (e5 & e6 & c & S5 & S6 & A5 & H6 & A6 & O6 & T6 & TP6 & Q6 & D1 & D2 & D3).
  set (e7 := e_set_corrs e6 [CVel (vc_set_queue c [exV (9 / 10)])]).
  assert (est_step e6 (OVel 0 (exV (9 / 10))) = Ok e7) as S7 by (cbn [est_step]; rewrite D1; cbn [upd_nth push_corr]; rewrite D2; reflexivity).
  destruct (step_safe [] e6 (OVel 0 (exV (9 / 10))) H6 I) as [(x & X1 & H7)|[X1 _]]; [|congruence]. rewrite S7 in X1. injection X1 as <-.
  destruct (vel_run [] e7 (vc_set_queue c [exV (9 / 10)]) (exV (9 / 10)) 1 H7 A6 eq_refl Q6 TP6 eq_refl) as (e8 & E8 & O8 & T8).
  { cbn. rewrite D3, C3. lra. } { cbn. lra. }
  exists e4, e5, e6, e7, e8. split; [exact exR3|]. do 5 (split; [assumption|]). do 2 (split; [assumption|]). split; [exact A6|]. auto.
Qed.

Lemma exProtocol : protocol (build exF) exOps.
Proof.
  destruct ex_states as (e4 & e5 & e6 & e7 & e8 & R3 & S4 & S5 & S6 & S7 & S8 & P3 & P4 & P5 & _).
  cbn [exOps exPre app protocol].
  split; [exact exA1|]. intros x1 X1. rewrite exS1 in X1. injection X1 as <-. split; [exact I|]. intros x1 X1. rewrite exS2 in X1. injection X1 as <-.
  split; [exact I|]. intros x1 X1. rewrite exS3 in X1. injection X1 as <-. split; [exact exA3|]. intros x1 X1. rewrite step_init, S4 in X1. injection X1 as <-.
  split; [exact I|]. intros x1 X1. rewrite S5 in X1. injection X1 as <-. split; [exact P4|]. intros x1 X1. rewrite step_run, S6 in X1. injection X1 as <-.
  split; [exact I|]. intros x1 X1. rewrite S7 in X1. injection X1 as <-. split; [exact P5|]. auto.
Qed.
(** C29 refuted: all sensors deliver in order, yet a published time stamp goes back *)
Lemma thm_time_refuted : exists f os, config_ok f /\ imu_stream (imus os) /\ sorted (map vm_t (vels os)) /\ protocol (build f) os /\
  (exists e, est_run (build f) os = Ok e) /\
  map st (published is_run_op (build f) os) = [Some 1; Some (9 / 10)].
Proof.
  exists exF, exOps. split; [exact exF_ok|]. split; [exact exStream|]. split; [cbn; lra|]. split; [exact exProtocol|].
  destruct ex_states as (e4 & e5 & e6 & e7 & e8 & R3 & S4 & S5 & S6 & S7 & S8 & P3 & P4 & P5 & O6 & O8 & T6 & T8 & _).
  split.
  - exists e8. cbn [exOps exPre app]. unfold est_run. cbn [foldM]. rewrite exS1. cbn [bind]. rewrite exS2. cbn [bind]. rewrite exS3. cbn [bind]. rewrite step_init, S4. cbn [bind].
    rewrite S5. cbn [bind]. rewrite step_run, S6. cbn [bind]. rewrite S7. cbn [bind]. rewrite step_run, S8. reflexivity.
  - cbn [exOps exPre app published]. rewrite exS1. cbn [is_run_op app]. rewrite exS2. cbn [app]. rewrite exS3. cbn [app]. rewrite step_init, S4. cbn [app].
    rewrite S5. cbn [app]. rewrite step_run, S6. rewrite O6, skipn_app_len. rewrite S7, step_run, S8, O8, skipn_app_len. cbn [app map]. rewrite T6, T8. reflexivity.
Qed.
