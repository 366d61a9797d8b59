(** C78 on a legged robot that stands still, stepping in place. *)
From Coq Require Import Reals ZArith List Bool Arith Lia Lra.
From Verif Require Import Res Vec3 Mat MatInv Psd Spec LieGroup LieSO3 LieSEK RobotState StateProofs StateHist Inekf SpecFilter InekfProofs InekfThms Blk Imu Propagation SpecProp
  PropagationProofs PropagationThms ImuRest ImuThms ImuNeg Queue VelCorr LegCorr SpecCorr VelThms PsdBlk LegThms LegAdd LegLoop LegUpd LegHist Estimator SpecEst EstInv EstSafe EstPub EstHist EstTime EstQueue EstEx
  ClearSlip ClearThms ClearEx YawEx SpecSnap Snap SnapEx SpecObs ObsEst ObsThms SpecTrack Track TrackEst TrackSteady TrackEx.
Import ListNotations.
Local Open Scope R_scope.

Lemma still_drives d : drives vzero (mkV 0 0 (98 / 10)) d (still 0) (still 0).
Proof.
  exists (fun _ => mid), (fun _ => vzero), (fun _ => vzero). split; [|split; reflexivity].
  assert (forall (c D : R) t, D = 0 -> derivable_pt_lim (fun _ => c) t D) as HC by (intros c D t ->; apply derivable_pt_lim_const).
  intros t. split; [|split].
  - intros i j Hi Hj. destruct i as [|[|[|]]]; [| | |lia]; (destruct j as [|[|[|]]]; [| | |lia]); cbn; apply HC; ring.
  - intros i Hi. destruct i as [|[|[|]]]; [| | |lia]; cbn; apply HC; lra.
  - intros i Hi. destruct i as [|[|[|]]]; [| | |lia]; cbn; apply HC; lra.
Qed.
Lemma mount_sx : mounting sxF = mid. Proof. unfold mounting. cbn. unfold toRotationMatrix, mid. apply M3_eq; cbn; ring. Qed.
Lemma still_imus : forall ms t, (forall m, In m ms -> i_w m = vzero /\ i_a m = mkV 0 0 (98 / 10)) -> imus_exact sxF vzero vzero still t ms.
Proof.
  induction ms as [|m ms IH]; intros t HM; [exact I|]. destruct (HM m (or_introl eq_refl)) as [M1 M2].
  assert (body_rate sxF vzero m = vzero) as ER by (unfold body_rate; rewrite mount_sx, M1; unfold mid, vzero; apply V3_eq; cbn; ring).
  assert (body_force sxF vzero vzero m = mkV 0 0 (98 / 10)) as EF by (unfold body_force; rewrite mount_sx, M2, ER; unfold lever, mid, vzero; apply V3_eq; cbn; ring).
  split; [|apply IH; intros x Hx; apply HM; right; exact Hx]. split; [rewrite ER, EF; apply (still_drives (i_t m - t))|left; exact ER].
Qed.
Lemma stand_runs W : forall os fut e, Forall (stand_op W) os -> e_enabled e = true -> est_ok (imus os ++ fut) e ->
  protocol e os /\ exists e', est_run e os = Ok e' /\ e_enabled e' = true /\ est_ok fut e'.
Proof.
  induction os as [|o os IH]; intros fut e HO He HE; [split; [exact I|exists e; cbn in HE; auto]|]. inversion HO as [|x y Ho Hos]; subst.
  assert (allowed e o) as HA by (destruct o; cbn in *; auto; contradiction). rewrite imus_cons in HE. rewrite <- app_assoc in HE.
  destruct (step_safe _ _ _ HE HA) as [(e1 & E1 & HE1)|[_ (l & -> & _)]]; [|contradiction].
  assert (e_enabled e1 = true) as He1.
  { pose proof (enabled_step _ _ _ E1) as ES. destruct o; try contradiction; try (destruct ES as [_ ES]; congruence). cbn [est_step op_imu app] in *.
    destruct (RunOnce_spec _ e l HE He) as (e2 & fs & bb & tp & A1 & A2 & A3 & A4 & A5 & A6 & A7 & A8 & A9 & _). congruence. }
  destruct (IH fut e1 Hos He1 HE1) as [P1 (e' & R1 & R2)]. split; [split; [exact HA|intros e2 E2; rewrite E1 in E2; injection E2 as <-; exact P1]|].
  exists e'. split; [|exact R2]. unfold est_run in *. cbn [foldM]. rewrite E1. exact R1.
Qed.
Lemma stand_stream W : forall os, Forall (stand_op W) os -> (forall m, In m (imus os) -> i_w m = vzero /\ i_a m = mkV 0 0 (98 / 10) /\ qnorm2 (i_q m) = 1).
Proof.
  induction os as [|o os IH]; intros HO m Hm; [contradiction|]. inversion HO as [|x y Ho Hos]; subst. rewrite imus_cons in Hm. apply in_app_or in Hm. destruct Hm as [Hm|Hm]; [|auto].
  destruct o; cbn in Hm; try contradiction. destruct Hm as [<-|[]]. exact Ho.
Qed.
Lemma stand_readings W : forall os i g r, Forall (stand_op W) os -> In r (flat_map (delivered (GLeg g) i) os) -> exists m, r = Datatypes.inr m /\ feet_at W m.
Proof.
  intros os i g r HO Hr. apply in_flat_map in Hr. destruct Hr as (o & Ho & Hr). rewrite Forall_forall in HO. specialize (HO o Ho). destruct o; cbn in HO, Hr; try contradiction.
  - destruct (Nat.eqb i i0); cbn in Hr; [destruct Hr as [<-|[]]; eauto|contradiction].
  - apply in_map_iff in Hr. destruct Hr as (v & <- & Hv). exists v. split; [reflexivity|]. destruct (nth_in_or_default i l no_arr) as [Hn|Hn]; [exact (HO _ v Hn Hv)|rewrite Hn in Hv; contradiction].
Qed.

Definition standPre : list op := [OInitBias; OImu (exM 1); OLeg 0 (sxL false false)].
Lemma stand_gen e0 c0 p0 p1 fut : e_enabled e0 = false -> e_corrs e0 = [CLeg c0] -> lc_queue c0 = [] -> lc_thr c0 = 3 / 10 -> e_prop e0 = Some p0 -> ip_queue p0 = [] -> ip_bias_init p0 = false ->
  InitImuBias p0 = Ok p1 -> ip_bias_init p1 = true -> ip_queue p1 = [] -> ip_bg0 p1 = vzero -> ip_ba0 p1 = vzero -> est_ok (exM 1 :: fut) e0 ->
  protocol e0 (standPre ++ [OInitState []]) /\ exists e c, est_run e0 (standPre ++ [OInitState []]) = Ok e /\ legged 1 e c /\ est_ok fut e /\
  pose_of (e_state e) = still 1 /\ gbias (e_state e) = vzero /\ abias (e_state e) = vzero /\ forall id, ~ tracked c id.
Proof.
  intros N0 C0 Q0 T0 P0 I0 B0 I1 B1 Q1 G1 G2 K0. set (m1 := exM 1) in *. set (x := sxL false false).
  assert (est_step e0 OInitBias = Ok (e_set_prop e0 p1)) as S1 by (apply (step_bias _ _ _ P0 I1)).
  assert (est_step (e_set_prop e0 p1) (OImu m1) = Ok (e_set_prop e0 (set_queue p1 [m1]))) as S2 by (rewrite (step_push _ _ m1 (set_prop_prop _ _)), set_prop_twice, Q1; reflexivity).
  set (e2 := e_set_prop e0 (set_queue p1 [m1])) in *.
  assert (est_step e2 (OLeg 0 x) = Ok (e_set_corrs e2 [CLeg (lc_set_queue c0 [x])])) as S3.
  { cbn [est_step]. change (e_corrs e2) with (e_corrs e0). rewrite C0. cbn [upd_nth push_corr]. rewrite Q0. reflexivity. }
  set (e3 := e_set_corrs e2 [CLeg (lc_set_queue c0 [x])]) in *.
  assert (allowed e0 OInitBias) as A1 by (split; [exact N0|]; unfold BiasInitialized; rewrite P0; cbn; rewrite B0; reflexivity).
  assert (allowed e3 (OInitState [])) as A4 by (split; [exact N0|]; unfold BiasInitialized; cbn; rewrite B1; reflexivity).
  assert (standPre ++ [OInitState []] = [OInitBias; OImu m1; OLeg 0 x; OInitState []]) as EO by reflexivity. rewrite EO. clear EO.
  assert (protocol e0 [OInitBias; OImu m1; OLeg 0 x; OInitState []]) as PR.
  { split; [exact A1|]. intros y Y. rewrite S1 in Y. injection Y as <-. split; [exact I|]. intros y Y. rewrite S2 in Y. injection Y as <-.
    split; [exact I|]. intros y Y. rewrite S3 in Y. injection Y as <-. split; [exact A4|]. intros; exact I. }
  split; [exact PR|].
  assert (forall fut e o e', est_ok (op_imu o ++ fut) e -> allowed e o -> est_step e o = Ok e' -> est_ok fut e') as HN.
  { intros fu y o z X1 X2 X3. destruct (step_safe fu y o X1 X2) as [(u & Z1 & Z2)|[Z1 _]]; congruence. }
  pose proof (HN (m1 :: fut) e0 OInitBias _ K0 A1 S1) as K1. pose proof (HN fut _ (OImu m1) _ K1 I S2) as K2. pose proof (HN fut _ (OLeg 0 x) _ K2 I S3) as K3. clear HN K1 K2.
  destruct (step_safe fut e3 (OInitState []) K3 A4) as [(e4 & S4 & K4)|[_ (l & L & NF)]].
  2:{ exfalso. injection L as <-. apply NF. cbn. split; [discriminate|exact I]. }
  pose proof S4 as S4'. rewrite step_init in S4'. pose proof (InitState_spec fut e3 [] (set_queue p1 [m1]) e4 K3 N0 eq_refl S4') as SP. cbn [ip_queue set_queue] in SP.
  destruct SP as (us & T & E4 & P4 & O4 & _ & _ & W2 & R5 & R6 & R7 & R8 & T4 & _ & R9).
  destruct (step_fixed e3 (OInitState []) e4 S4) as (_ & F & _). change (e_corrs e3) with [CLeg (lc_set_queue c0 [x])] in F, T.
  destruct (e_corrs e4) as [|c4 [|? ?]] eqn:C4; try discriminate. cbn [map] in F. assert (c_fixed c4 = c_fixed (CLeg (lc_set_queue c0 [x]))) as F1 by congruence.
  destruct c4 as [c4|c4]; [discriminate|]. destruct us as [|u us]; [contradiction|]. cbn [took_all] in T. destruct T as [[T1 T2] T3]. destruct us; [|contradiction].
  destruct u as [|y u]; [congruence|]. cbn in T1. injection T1 as <- T1. destruct u; [|discriminate]. cbn in T1. symmetry in T1. apply map_eq_nil in T1.
  exists e4, c4. split; [rewrite run_cons, S1; cbn [bind]; rewrite run_cons, S2; cbn [bind]; rewrite run_cons, S3; cbn [bind]; rewrite run_cons, S4; reflexivity|].
  split; [|split; [exact K4|]].
  { constructor; auto; [unfold imu_queue; rewrite P4; reflexivity|]. cbn in F1. injection F1. intros. congruence. }
  split.
  { cbn in R9. destruct R9 as [R9 _]. unfold pose_of, still. rewrite R9, R6, R5. cbn [ip_use_ori set_queue].
    replace (if ip_use_ori p1 then toRotationMatrix (i_q m1) else mid) with mid; [|destruct (ip_use_ori p1); [|reflexivity]; unfold toRotationMatrix, mid; cbn; apply M3_eq; cbn; ring].
    replace (mid *v vzero) with vzero by (unfold mid, vzero; apply V3_eq; cbn; ring). reflexivity. }
  split; [rewrite R7; exact G1|]. split; [rewrite R8; exact G2|].
  intros id HT. destruct (ok_on _ _ K4 E4) as (ids & C & _). rewrite C4 in C. cbn [leg_of contacts] in C. pose proof (tr_wf _ _ _ _ C) as W4.
  destruct (lc_map c4 id) as [a|] eqn:Ea; [|apply HT; exact Ea].
  apply (tr_in _ _ _ _ C) in Ea. pose proof (wfp_unique _ _ _ W2 W4). destruct ids; [destruct Ea|cbn in *; lia].
Qed.
Lemma stand_start fut : imu_stream (exM 1 :: fut) -> protocol (build sxF) (standPre ++ [OInitState []]) /\ exists e c, est_run (build sxF) (standPre ++ [OInitState []]) = Ok e /\ legged 1 e c /\ est_ok fut e /\
  pose_of (e_state e) = still 1 /\ gbias (e_state e) = vzero /\ abias (e_state e) = vzero /\ forall id, ~ tracked c id.
Proof.
  intros HS. apply (stand_gen (build sxF) (LeggedKinematicsCorrection [] RightInvariant no_lcfg) (ImuPropagation [] RightInvariant exI) exIp1); try reflexivity; try (rewrite build_eq; reflexivity).
  apply (build_ok sxF (exM 1 :: fut) sxF_ok). exact HS.
Qed.
Lemma thm_standing W post : Forall (stand_op W) post -> nondec 1 (map i_t (imus post)) ->
  exists e1 e2, est_run (build sxF) (standPre ++ [OInitState []]) = Ok e1 /\ reachable sxF ((standPre ++ [OInitState []]) ++ post) e2 /\
    Forall (on_truth still) (published is_filter_op e1 post) /\ on_truth still (e_state e2) /\
    (forall c id w, In (CLeg c) (e_corrs e2) -> ppos c (e_heap e2) (e_state e2) id = Some w -> w = W id).
Proof.
  intros HO HT. pose proof (stand_stream W post HO) as HM.
  assert (imu_stream (exM 1 :: imus post)) as HS. { split; [constructor; [unfold qnorm2; cbn; ring|]; apply Forall_forall; intros m Hm; apply (HM m Hm)|exact HT]. }
  destruct (stand_start (imus post) HS) as (P4 & e4 & c4 & E4 & LG & H4 & X4 & G4 & B4 & _).
  pose proof H4 as H4'. rewrite <- (app_nil_r (imus post)) in H4'. destruct (stand_runs W post [] e4 HO (lg_en _ _ _ LG) H4') as [P5 (e5 & E5 & A5 & _)].
  assert (reachable sxF ((standPre ++ [OInitState []]) ++ post) e5) as HR.
  { split; [exact sxF_ok|]. split; [rewrite imus_app; exact HS|]. split; [|exact (run_app _ _ _ _ _ E4 E5)].
    apply protocol_app; [exact P4|]. intros e' E'. rewrite E4 in E'. injection E' as <-. exact P5. }
  exists e4, e5. split; [exact E4|]. split; [exact HR|].
  destruct (thm_steady sxF standPre [] post e4 e5 still W 1 HR E4 (lg_en _ _ _ LG)) as (Z1 & _ & _ & Z3 & Z2).
  - intros HC. rewrite Forall_forall in HO. exact (HO _ HC).
  - exact (lg_tp _ _ _ LG).
  - exact X4.
  - rewrite G4, B4, (lg_i _ _ _ LG). apply still_imus. intros m Hm. destruct (HM m Hm) as (M1 & M2 & _). auto.
  - intros i g r Hg Hr. destruct i as [|i]; [|destruct i; discriminate]. cbn in Hg. injection Hg as <-. unfold queue_of in Hr. rewrite (lg_c _ _ _ LG) in Hr. cbn [nth_error queued] in Hr. rewrite (lg_q _ _ _ LG) in Hr. cbn [map app] in Hr.
    destruct (stand_readings W post 0 no_lcfg r HO Hr) as (m & -> & Hv). cbn [always_right]. intros t id o Ho Hc. rewrite (Hv id o Ho Hc). cbn. apply V3_eq; cbn; ring.
  - auto.
Qed.
(** two feet touch down, one lifts; the other stays where it is *)
Lemma standing_example : exists e2, let post := [OLeg 0 (sxL true true); ORunOnce []; OLeg 0 (sxL true false); ORunOnce []] in
  Forall (stand_op (fun _ => mkV 1 2 3)) post /\ nondec 1 (map i_t (imus post)) /\ reachable sxF ((standPre ++ [OInitState []]) ++ post) e2 /\
  on_truth still (e_state e2) /\ exists c, In (CLeg c) (e_corrs e2) /\ forall id, ppos c (e_heap e2) (e_state e2) id = if Nat.eqb id 0 then Some (mkV 1 2 3) else None.
Proof.
  cbv zeta. set (post := [OLeg 0 (sxL true true); ORunOnce []; OLeg 0 (sxL true false); ORunOnce []]).
  assert (Forall (stand_op (fun _ => mkV 1 2 3)) post) as HO.
  { assert (forall a b, feet_at (fun _ => mkV 1 2 3) (sxL a b)) as HF by (intros a b [|[|[|id]]] o Ho _; cbn in Ho; try discriminate; injection Ho as <-; reflexivity).
    unfold post. repeat constructor; cbn [stand_op]; try apply HF; intros; contradiction. }
  destruct (thm_standing (fun _ => mkV 1 2 3) post HO I) as (e1 & e2 & E1 & HR & _ & HX & HF). exists e2. split; [exact HO|]. split; [exact I|]. split; [exact HR|]. split; [exact HX|].
  destruct (stand_start []) as (_ & e & c & E & LG & K & _ & _ & _ & NT). { split; [repeat constructor; unfold qnorm2; cbn; ring|exact I]. }
  rewrite E1 in E. injection E as <-.
  destruct (leg_run [] 1 e1 c (sxL true true) K LG) as (f0 & f1 & c1 & S0 & N0 & _ & _ & S1 & LG1 & K1 & T1 & _); [cbn; lra|].
  destruct (leg_run [] 1 f1 c1 (sxL true false) K1 LG1) as (f2 & f3 & c2 & S2 & N2 & _ & _ & S3 & LG3 & K3 & T3 & _); [cbn; lra|].
  assert (f3 = e2) as ->.
  { destruct HR as (_ & _ & _ & ER). pose proof (run_rest _ _ _ _ _ E1 ER) as E2. unfold post in E2. rewrite <- step_run in S1, S3.
    pose proof (run_two _ _ _ _ _ S0 (run_two _ _ _ _ _ S1 (run_two _ _ _ _ _ S2 (run_one _ _ _ S3)))) as E3. congruence. }
  exists c2. assert (In (CLeg c2) (e_corrs e2)) as HI by (rewrite (lg_c _ _ _ LG3); left; reflexivity). split; [exact HI|]. intros id.
  destruct (ok_on _ _ K3 (lg_en _ _ _ LG3)) as (ids & C & _). rewrite (lg_c _ _ _ LG3) in C. cbn [leg_of contacts] in C.
  pose proof (ppos_tracked c2 (e_heap e2) (e_state e2) ids id C) as HP. pose proof (HF c2 id) as HW. specialize (HW) with (1 := HI).
  rewrite T3 in HP. unfold tracked_after in HP. destruct id as [|[|id]]; cbn [Nat.eqb nth_error lm_legs sxL] in *.
  - destruct (ppos c2 (e_heap e2) (e_state e2) 0) as [w|]; [rewrite (HW w eq_refl); reflexivity|]. exfalso. apply (proj1 HP); reflexivity.
  - destruct (ppos c2 (e_heap e2) (e_state e2) 1) as [w|]; [|reflexivity]. assert (Some w <> None) as H by discriminate. apply HP in H. discriminate.
  - destruct (ppos c2 (e_heap e2) (e_state e2) (S (S id))) as [w|]; [|reflexivity]. assert (Some w <> None) as H by discriminate. apply HP in H. rewrite nth_error_nil in H.
    rewrite T1 in H. unfold tracked_after in H. cbn [nth_error lm_legs sxL] in H. rewrite nth_error_nil in H. exfalso. exact (NT _ H).
Qed.
