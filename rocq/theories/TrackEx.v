(** C78 on a robot driving in a circle: all hypotheses met, any order of calls. *)
From Coq Require Import Reals ZArith List Bool Arith Lia Lra.
From Verif Require Import Res Vec3 Mat MatInv Psd Spec LieGroup LieSO3 LieSEK RobotState StateProofs StateHist Inekf SpecFilter InekfProofs InekfThms Blk Imu Propagation SpecProp
  PropagationProofs PropagationThms ImuRest ImuThms ImuNeg Queue VelCorr LegCorr SpecCorr VelThms PsdBlk LegThms LegAdd LegLoop LegUpd LegHist Estimator SpecEst EstInv EstSafe EstPub EstHist EstTime EstQueue EstEx
  ClearSlip ClearThms ClearEx SpecObs ObsEst ObsThms SpecTrack Track TrackEst TrackSteady TrackCircle.
Import ListNotations.
Local Open Scope R_scope.

Lemma norm_z d w : vnorm (d *s mkV 0 0 w) = Rabs (d * w).
Proof. unfold vnorm. replace (vdot _ _) with (Rsqr (d * w)) by (unfold vdot, Rsqr; cbn; ring). apply sqrt_Rsqr_abs. Qed.
Lemma mount_ex : mounting exF = mid. Proof. unfold mounting. cbn. unfold toRotationMatrix, mid. apply M3_eq; cbn; ring. Qed.
Lemma rate_ex m w : i_w m = mkV 0 0 w -> body_rate exF vzero m = mkV 0 0 w.
Proof. intros E. unfold body_rate. rewrite mount_ex, E. unfold vzero, mid. apply V3_eq; cbn; ring. Qed.
Lemma force_ex m w : i_w m = mkV 0 0 w -> i_a m = mkV 0 w (98 / 10) -> body_force exF vzero vzero m = mkV 0 (1 * w) (98 / 10).
Proof. intros E1 E2. unfold body_force. rewrite mount_ex, (rate_ex m w E1), E2. unfold lever, mid, vzero. apply V3_eq; cbn; ring. Qed.
Lemma circle_imus w : w <> 0 -> forall ms t, (forall m, In m ms -> i_w m = mkV 0 0 w /\ i_a m = mkV 0 w (98 / 10)) -> ticks w t ms -> imus_exact exF vzero vzero (circle 1 w 1) t ms.
Proof.
  intros Hw. induction ms as [|m ms IH]; intros t HM HT; [exact I|]. destruct HT as (H1 & H2 & H3). destruct (HM m (or_introl eq_refl)) as [M1 M2]. split.
  - split.
    + rewrite (rate_ex m w M1), (force_ex m w M1 M2). replace (circle 1 w 1 (i_t m)) with (circle 1 w 1 (t + (i_t m - t))) by (f_equal; ring). apply circle_drives. exact Hw.
    + rewrite (rate_ex m w M1), norm_z. tauto.
  - apply IH; [intros x Hx; apply HM; right; exact Hx|exact H3].
Qed.
Lemma circle_start w : mkPose mid (mkV 1 0 0) vzero = circle 1 w 1 1.
Proof.
  unfold circle. replace (w * (1 - 1)) with 0 by ring. rewrite sin_0, cos_0. unfold rotz, mid, vzero. rewrite cos_0, sin_0.
  assert (forall a b c a' b' c', a = a' -> b = b' -> c = c' -> mkPose a b c = mkPose a' b' c') as H by (intros; congruence).
  apply H; [apply M3_eq; cbn; ring|apply V3_eq; cbn; ring|apply V3_eq; cbn; ring].
Qed.
Lemma circle_body w t : mtr (po_R (circle 1 w 1 t)) *v po_v (circle 1 w 1 t) = mkV 1 0 0.
Proof.
  unfold circle. cbn [po_R po_v]. set (a := w * (t - 1)). pose proof (sin2_cos2 a) as H. unfold Rsqr in H. unfold rotz. cbn. apply V3_eq; cbn; try ring. transitivity (sin a * sin a + cos a * cos a); [ring|exact H].
Qed.

(** while the filter runs, every list of such calls is legal and succeeds *)
Lemma circle_runs w : forall os fut e, Forall (circle_op w) os -> e_enabled e = true -> est_ok (imus os ++ fut) e ->
  protocol e os /\ exists e', est_run e os = Ok e' /\ e_enabled e' = true /\ est_ok fut e'.
Proof.
  induction os as [|o os IH]; intros fut e HO He HE; [split; [exact I|exists e; cbn in HE; auto]|]. inversion HO as [|x y Ho Hos]; subst.
  assert (allowed e o) as HA by (destruct o; cbn in *; auto; contradiction). rewrite imus_cons in HE. rewrite <- app_assoc in HE.
  destruct (step_safe _ _ _ HE HA) as [(e1 & E1 & HE1)|[_ (l & -> & _)]]; [|contradiction].
  assert (e_enabled e1 = true) as He1.
  { pose proof (enabled_step _ _ _ E1) as ES. destruct o; try (destruct ES as [_ ES]; congruence); try contradiction. cbn [est_step op_imu app] in *.
    destruct (RunOnce_spec _ e l HE He) as (e2 & fs & bb & tp & A1 & A2 & A3 & A4 & A5 & A6 & A7 & A8 & A9 & _). congruence. }
  destruct (IH fut e1 Hos He1 HE1) as [P1 (e' & R1 & R2)]. split; [split; [exact HA|intros e2 E2; rewrite E1 in E2; injection E2 as <-; exact P1]|].
  exists e'. split; [|exact R2]. unfold est_run in *. cbn [foldM]. rewrite E1. exact R1.
Qed.
Lemma ticks_sorted w : forall ms t, ticks w t ms -> nondec t (map i_t ms).
Proof. induction ms as [|m ms IH]; cbn; auto. intros t (H1 & _ & H2). auto. Qed.
Lemma circle_stream w : forall os, Forall (circle_op w) os -> (forall m, In m (imus os) -> i_w m = mkV 0 0 w /\ i_a m = mkV 0 w (98 / 10) /\ qnorm2 (i_q m) = 1).
Proof.
  induction os as [|o os IH]; intros HO m Hm; [contradiction|]. inversion HO as [|x y Ho Hos]; subst. rewrite imus_cons in Hm. apply in_app_or in Hm. destruct Hm as [Hm|Hm]; [|auto].
  destruct o; cbn in Hm; try contradiction. destruct Hm as [<-|[]]. exact Ho.
Qed.
Lemma circle_readings w : forall os i g r, Forall (circle_op w) os -> In r (flat_map (delivered (GVel g) i) os) -> exists m, r = Datatypes.inl m /\ vm_v m = mkV 1 0 0.
Proof.
  intros os i g r HO Hr. apply in_flat_map in Hr. destruct Hr as (o & Ho & Hr). rewrite Forall_forall in HO. specialize (HO o Ho). destruct o; cbn in HO, Hr; try contradiction.
  - destruct (Nat.eqb i i0); cbn in Hr; [destruct Hr as [<-|[]]; eauto|contradiction].
  - apply in_map_iff in Hr. destruct Hr as (v & <- & Hv). exists v. split; [reflexivity|]. destruct (nth_in_or_default i l no_arr) as [Hn|Hn]; [exact (HO _ v Hn Hv)|rewrite Hn in Hv; contradiction].
Qed.
(** InitState of the example with what the tracking theorem needs to know *)
Lemma ex_start fut : Forall (fun m => qnorm2 (i_q m) = 1) fut -> nondec 1 (map i_t fut) ->
  exists e3 e4, est_run (build exF) exPre = Ok e3 /\ protocol (build exF) (exPre ++ [OInitState []]) /\ est_run (build exF) (exPre ++ [OInitState []]) = Ok e4 /\ est_ok fut e4 /\ e_enabled e4 = true /\
  stprop (e_state e4) = Some 1 /\ pose_of (e_state e4) = mkPose mid (mkV 1 0 0) vzero /\ gbias (e_state e4) = vzero /\ abias (e_state e4) = vzero /\ imu_queue e4 = [] /\ queue_of e4 0 = [] /\
  (exists ip, e_prop e4 = Some ip /\ ip_prev ip = Some (exM 1) /\ ip_queue ip = []).
Proof.
  intros HQ HT. assert (imu_stream (imus exPre ++ fut)) as HS by (split; [constructor; [unfold qnorm2; cbn; ring|exact HQ]|exact HT]).
  assert (est_ok fut exE3) as H3.
  { destruct (step_safe (exM 1 :: fut) (build exF) OInitBias (build_ok exF _ exF_ok HS) exA1) as [(x & X1 & X2)|[X1 _]]; [|rewrite exS1 in X1; discriminate].
    rewrite exS1 in X1. injection X1 as <-.
    destruct (step_safe fut exE1 (OImu (exM 1)) X2 I) as [(x & X1 & X3)|[X1 _]]; [|rewrite exS2 in X1; discriminate]. rewrite exS2 in X1. injection X1 as <-.
    destruct (step_safe fut exE2 (OVel 0 (exV (8 / 10))) X3 I) as [(x & X1 & X4)|[X1 _]]; [|rewrite exS3 in X1; discriminate]. rewrite exS3 in X1. injection X1 as <-. exact X4. }
  destruct exS4 as (e4 & c4 & S4 & _ & A1 & A2 & C1 & C2 & _ & _).
  destruct (step_safe fut exE3 (OInitState []) H3 exA3) as [(x & X1 & H4)|[X1 _]]; rewrite step_init, S4 in X1; [|discriminate]. injection X1 as <-.
  pose proof (InitState_spec _ exE3 [] exIp2 e4 H3 (proj1 exA3) exP3 S4) as I4. change (ip_queue exIp2) with [exM 1] in I4. cbv iota beta in I4.
  destruct I4 as (us & _ & _ & _ & _ & _ & _ & _ & A7 & A8 & A9 & A10 & A11 & _).
  assert (col (sX (e_state e4)) 0 = mkV 1 0 0) as V0. { destruct exS4 as (x & c & Sx & _ & _ & _ & _ & _ & _ & V). rewrite S4 in Sx. injection Sx as <-. exact V. }
  exists exE3, e4. split; [exact exR3|]. split.
  { apply protocol_app; [|intros e' E; rewrite exR3 in E; injection E as <-; split; [exact exA3|intros; exact I]].
    cbn [exPre protocol]. split; [exact exA1|]. intros x1 X1. rewrite exS1 in X1. injection X1 as <-. split; [exact I|]. intros x1 X1. rewrite exS2 in X1. injection X1 as <-. split; [exact I|]. intros; exact I. }
  split; [exact (run_app _ _ _ _ _ exR3 (run_one exE3 (OInitState []) e4 S4))|]. split; [exact H4|]. split; [exact A1|]. split; [exact A11|]. split.
  { unfold pose_of. rewrite A7, A8, V0. replace (if ip_use_ori exIp2 then toRotationMatrix (i_q (exM 1)) else mid) with mid; [reflexivity|]. destruct (ip_use_ori exIp2); [|reflexivity]. unfold toRotationMatrix, mid. cbn. apply M3_eq; cbn; ring. }
  split; [rewrite A9; reflexivity|]. split; [rewrite A10; reflexivity|]. split; [unfold imu_queue; rewrite A2; reflexivity|]. split; [unfold queue_of; rewrite C1; cbn; rewrite C2; reflexivity|].
  eexists. split; [exact A2|]. split; reflexivity.
Qed.
Lemma imus_app : forall a b, imus (a ++ b) = imus a ++ imus b.
Proof. induction a as [|o a IH]; intros b; [reflexivity|]. cbn [app]. rewrite !imus_cons, IH, app_assoc. reflexivity. Qed.
Lemma thm_circle w post : w <> 0 -> Forall (circle_op w) post -> ticks w 1 (imus post) ->
  exists e1 e2, est_run (build exF) (exPre ++ [OInitState []]) = Ok e1 /\ reachable exF ((exPre ++ [OInitState []]) ++ post) e2 /\
    Forall (on_truth (circle 1 w 1)) (published is_filter_op e1 post) /\ on_truth (circle 1 w 1) (e_state e2).
Proof.
  intros Hw HO HT. pose proof (circle_stream w post HO) as HM.
  destruct (ex_start (imus post)) as (e3 & e4 & E3 & P4 & E4 & H4 & A4 & T4 & X4 & G4 & B4 & Q4 & Q4' & _).
  { apply Forall_forall. intros m Hm. apply (HM m Hm). } { eapply ticks_sorted; exact HT. }
  rewrite <- (app_nil_r (imus post)) in H4. destruct (circle_runs w post [] e4 HO A4 H4) as [P5 (e5 & E5 & A5 & _)].
  assert (reachable exF ((exPre ++ [OInitState []]) ++ post) e5) as HR.
  { split; [exact exF_ok|]. split; [|split; [|exact (run_app _ _ _ _ _ E4 E5)]].
    - rewrite imus_app. split; [|cbn; eapply ticks_sorted; exact HT]. constructor; [unfold qnorm2; cbn; ring|]. apply Forall_forall. intros m Hm. apply (HM m Hm).
    - apply protocol_app; [exact P4|]. intros e' E'. rewrite E4 in E'. injection E' as <-. exact P5. }
  exists e4, e5. split; [exact E4|]. split; [exact HR|].
  destruct (thm_steady exF exPre [] post e4 e5 (circle 1 w 1) (fun _ => vzero) 1 HR E4 A4) as (Z1 & _ & _ & _ & Z2).
  - intros HC. rewrite Forall_forall in HO. exact (HO _ HC).
  - exact T4.
  - rewrite X4. apply circle_start.
  - rewrite G4, B4, Q4. apply circle_imus; [exact Hw| |exact HT]. intros m Hm. destruct (HM m Hm) as (M1 & M2 & _). auto.
  - intros i g r Hg Hr. destruct i as [|i]; [|destruct i; discriminate]. cbn in Hg. injection Hg as <-. rewrite Q4' in Hr. cbn [app] in Hr.
    destruct (circle_readings w post 0 no_vcfg r HO Hr) as (m & -> & Hv). cbn [always_right reading_exact]. intros t. rewrite circle_body, Hv. cbn. apply V3_eq; cbn; ring.
  - auto.
Qed.

(** a concrete drive *)
Lemma run_prev e l ip x q e' : e_prop e = Some ip -> ip_queue ip = x :: q -> RunOnce e l = Ok e' -> e_prop e' = Some (set_prev (set_queue ip q) x).
Proof.
  intros Hip Hq E. unfold RunOnce in E. rewrite Hip in E. cbn [of_opt bind] in E. apply bind_inv in E. destruct E as ([[b i'] s] & Q & E).
  assert (i' = set_prev (set_queue ip q) x) as ->. { unfold Propagate in Q. rewrite Hq in Q. inv_bind Q. injection Q as <- <- <-. reflexivity. }
  apply bind_inv in E. destruct E as ([[[b2 cs] h] s'] & _ & E). destruct (b || b2); inv_bind E; injection E as <-; reflexivity.
Qed.
Definition circM (t : R) : imu := mkImu t (mkQ 1 0 0 0) (mkV 0 0 1) (mkV 0 1 (98 / 10)).
Definition circOps : list op := [OImu (circM 2); ORunOnce []; OVel 0 (exV (9 / 10)); ORunOnce []; OImu (circM 3); ORunOnce []].
Lemma tol_1 : TOLERANCE <= Rabs ((2 - 1) * 1) /\ TOLERANCE <= Rabs ((3 - 2) * 1).
Proof. assert (TOLERANCE <= 1) by (unfold TOLERANCE; lra). split; (replace ((_ - _) * 1) with 1 by ring); rewrite Rabs_R1; assumption. Qed.
Lemma circ_ops : Forall (circle_op 1) circOps /\ ticks 1 1 (imus circOps).
Proof.
  split; [|cbn; destruct tol_1; repeat split; try lra; auto]. unfold circOps. repeat constructor; cbn; auto; try (unfold qnorm2; cbn; ring); intros; contradiction.
Qed.
Lemma two_more e a l1 b l2 c l3 ip m fut : est_ok (imus [OImu a; ORunOnce l1; b; ORunOnce l2; OImu c; ORunOnce l3] ++ fut) e -> e_enabled e = true -> e_prop e = Some ip -> ip_prev ip = Some m -> ip_queue ip = [] ->
  (exists v, b = OVel 0 v) ->
  forall e', est_run e [OImu a; ORunOnce l1; b; ORunOnce l2; OImu c; ORunOnce l3] = Ok e' -> stprop (e_state e') = Some (i_t a).
Proof.
  intros HE He Hp Hm Hq (v & ->) e' E. unfold est_run in E. cbn [foldM] in E.
  destruct (est_step e (OImu a)) as [e1|] eqn:E1; [|discriminate]. cbn [bind] in E. destruct (est_step e1 (ORunOnce l1)) as [e2|] eqn:E2; [|discriminate]. cbn [bind] in E.
  destruct (est_step e2 (OVel 0 v)) as [e3|] eqn:E3; [|discriminate]. cbn [bind] in E. destruct (est_step e3 (ORunOnce l2)) as [e4|] eqn:E4; [|discriminate]. cbn [bind] in E.
  destruct (est_step e4 (OImu c)) as [e5|] eqn:E5; [|discriminate]. cbn [bind] in E. destruct (est_step e5 (ORunOnce l3)) as [e6|] eqn:E6; [|discriminate]. cbn [bind] in E. injection E as <-.
  cbn [imus app] in HE.
  assert (forall fut e o e', est_ok (op_imu o ++ fut) e -> allowed e o -> est_step e o = Ok e' -> est_ok fut e') as HN.
  { intros fu x o y X1 X2 X3. destruct (step_safe fu x o X1 X2) as [(z & Z1 & Z2)|[Z1 _]]; congruence. }
  assert (forall fut e l e', est_ok fut e -> e_enabled e = true -> est_step e (ORunOnce l) = Ok e' -> e_enabled e' = true) as HEn.
  { intros fu x l y X1 X2 X3. destruct (RunOnce_spec fu x l X1 X2) as (z & fs & bb & tp & Z1 & _ & _ & _ & _ & _ & _ & _ & Z9 & _). change (est_step x (ORunOnce l)) with (RunOnce x l) in X3. congruence. }
  pose proof (HN (c :: fut) e (OImu a) e1 HE I E1) as H1. assert (e_enabled e1 = true) as A1 by (rewrite (proj2 (enabled_step _ _ _ E1)); exact He).
  assert (e_prop e1 = Some (set_queue ip [a])) as P1. { cbn [est_step] in E1. rewrite Hp in E1. cbn [of_opt bind] in E1. injection E1 as <-. cbn. rewrite Hq. reflexivity. }
  pose proof (HN (c :: fut) e1 (ORunOnce l1) e2 H1 A1 E2) as H2. pose proof (HEn _ _ _ _ H1 A1 E2) as A2. pose proof (run_prev e1 l1 _ a [] e2 P1 eq_refl E2) as P2.
  pose proof (HN (c :: fut) e2 (OVel 0 v) e3 H2 I E3) as H3. assert (e_enabled e3 = true) as A3 by (rewrite (proj2 (enabled_step _ _ _ E3)); exact A2).
  assert (e_prop e3 = e_prop e2) as P3 by (cbn [est_step] in E3; injection E3 as <-; reflexivity).
  pose proof (HN (c :: fut) e3 (ORunOnce l2) e4 H3 A3 E4) as H4. pose proof (HEn _ _ _ _ H3 A3 E4) as A4.
  assert (e_prop e4 = e_prop e2) as P4.
  { change (est_step e3 (ORunOnce l2)) with (RunOnce e3 l2) in E4. unfold RunOnce in E4. rewrite P3, P2 in E4. cbn [of_opt bind] in E4. unfold Propagate in E4. cbn [ip_queue set_prev set_queue bind] in E4.
    apply bind_inv in E4. destruct E4 as ([[[b2 cs] h] s'] & _ & E4). rewrite P2. destruct (false || b2); inv_bind E4; injection E4 as <-; reflexivity. }
  pose proof (HN fut e4 (OImu c) e5 H4 I E5) as H5. assert (e_enabled e5 = true) as A5 by (rewrite (proj2 (enabled_step _ _ _ E5)); exact A4).
  rewrite P2 in P4. assert (e_prop e5 = Some (set_queue (set_prev (set_queue (set_queue ip [a]) []) a) [c])) as P5. { cbn [est_step] in E5. rewrite P4 in E5. cbn [of_opt bind] in E5. injection E5 as <-. reflexivity. }
  destruct (RunOnce_spec fut e5 l3 H5 A5) as (z & fs & bb & tp & Z1 & Z2 & _ & _ & _ & _ & _ & _ & _ & _ & _ & Z12 & _). change (est_step e5 (ORunOnce l3)) with (RunOnce e5 l3) in E6. rewrite E6 in Z1. injection Z1 as <-.
  rewrite Z2. f_equal. destruct Z12 as (ip' & m' & D1 & D2 & ->); [unfold imu_queue; rewrite P5; discriminate|]. rewrite P5 in D1. injection D1 as <-. cbn in D2. injection D2 as <-. reflexivity.
Qed.
Lemma run_rest os1 os2 e e1 e2 : est_run e os1 = Ok e1 -> est_run e (os1 ++ os2) = Ok e2 -> est_run e1 os2 = Ok e2.
Proof. unfold est_run. intros A B. rewrite foldM_app, A in B. exact B. Qed.
Lemma circle_example : exists e2, reachable exF ((exPre ++ [OInitState []]) ++ circOps) e2 /\ stprop (e_state e2) = Some 2 /\ pose_of (e_state e2) = circle 1 1 1 2.
Proof.
  destruct circ_ops as [HO HT]. destruct (thm_circle 1 circOps ltac:(lra) HO HT) as (e1 & e2 & E1 & HR & _ & HX). exists e2. split; [exact HR|].
  destruct (ex_start (imus circOps)) as (e3 & e4 & E3 & P4 & E4 & H4 & A4 & T4 & X4 & G4 & B4 & Q4 & Q4' & (ip & I1 & I2 & I3)).
  { apply Forall_forall. intros m Hm. apply (circle_stream 1 circOps HO m Hm). } { eapply ticks_sorted; exact HT. }
  rewrite E1 in E4. injection E4 as <-. assert (stprop (e_state e2) = Some 2) as TP.
  { eapply (two_more e1 (circM 2) [] (OVel 0 (exV (9 / 10))) [] (circM 3) [] ip (exM 1) []); [exact H4|exact A4|exact I1|exact I2|exact I3|eauto|].
    destruct HR as (_ & _ & _ & ER). exact (run_rest _ _ _ _ _ E1 ER). }
  split; [exact TP|]. destruct HX as (t & Ht & HX). rewrite TP in Ht. injection Ht as <-. exact HX.
Qed.
