(** Proofs: C78 when the readings are constant in body axes, for any order of calls. *)
From Coq Require Import Reals ZArith List Bool Arith Lia Lra.
From Verif Require Import Res Vec3 Mat MatInv Psd Spec LieGroup LieSO3 LieSEK RobotState StateProofs StateHist Inekf SpecFilter InekfProofs InekfThms Blk Imu Propagation SpecProp
  PropagationProofs PropagationThms PropagationExact PropagationUniq ImuRest ImuThms ImuNeg Queue VelCorr LegCorr SpecCorr VelThms PsdBlk LegThms LegAdd LegLoop LegUpd LegHist Estimator SpecEst EstInv EstSafe EstPub EstHist EstTime EstQueue
  ClearThms ObsEst ObsThms SpecTrack Track TrackEst.
Import ListNotations.
Local Open Scope R_scope.

Lemma used_in thr t q q' r : used_of thr t q q' = Some r -> In r q.
Proof.
  unfold used_of. destruct (newest _) as [x|] eqn:E; [|discriminate]. apply newest_in in E. destruct (Rle_dec _ _); [|discriminate]. intros [= <-].
  rewrite <- (firstn_skipn (length q - length q') q). apply in_or_app. left. exact E.
Qed.
Lemma leg_unique : forall gs i j g g', (length (filter is_leg gs) <= 1)%nat -> nth_error gs i = Some (GLeg g) -> nth_error gs j = Some (GLeg g') -> i = j.
Proof.
  assert (forall gs, length (filter is_leg gs) = 0%nat -> forall i g, nth_error gs i <> Some (GLeg g)) as HZ.
  { induction gs as [|[x|x] gs IH]; cbn; intros H i g; [destruct i; discriminate| |discriminate]. destruct i as [|i]; cbn; [discriminate|apply IH; exact H]. }
  induction gs as [|[x|x] gs IH]; cbn; intros [|i] [|j] g g' H H1 H2; try discriminate; auto.
  - f_equal. eapply IH; eauto.
  - exfalso. eapply (HZ gs); [lia|exact H2].
  - exfalso. eapply (HZ gs); [lia|exact H1].
  - f_equal. eapply IH; eauto. lia.
Qed.

Section Steady.
Variables (f : config) (T : R -> pose) (W : nat -> V3).
Hypothesis HL : (length (filter is_leg (f_corrs f)) <= 1)%nat.
Definition at_W (st : stance) : Prop := forall id w, st id = Some w -> w = W id.
Definition all_right (e : est) (os : list op) : Prop :=
  forall i g r, nth_error (f_corrs f) i = Some g -> In r (queue_of e i ++ flat_map (delivered g i) os) -> always_right T W g r.
Lemma stand_W t m st g : always_right T W (GLeg g) (Datatypes.inr m) -> at_W st -> at_W (stand (T t) m st).
Proof.
  intros HA HS id w. unfold stand. destruct (nth_error (lm_legs m) id) as [o|] eqn:E; [|apply HS]. destruct (lo_contact o) eqn:Ec; [|discriminate]. intros [= <-]. exact (HA t id o E Ec).
Qed.
Lemma right_exact t g r st : always_right T W g r -> at_W st -> reading_exact g (T t) st r.
Proof.
  destruct g as [g|g], r as [m|m]; cbn [always_right]; try contradiction; intros HA HS; [exact (HA t)|]. intros id w w' H1 H2.
  rewrite (HS _ _ H1). exact (stand_W t m st g HA HS id w' H2).
Qed.
Lemma steady_step e o e1 os st : set_of f e -> est_step e o = Ok e1 -> all_right e (o :: os) -> at_W st -> all_right e1 os /\ exists st1, senses f T e o e1 st st1 /\ at_W st1.
Proof.
  intros [HS1 HS2] E HA HW. split.
  - intros i g r Hi Hr. apply (HA i g r Hi). cbn [flat_map]. destruct (objs_kind _ _ HS1 i g Hi) as (c & Hc & Ho).
    destruct (corr_step_move g i e o e1 c E Hc (obj_kind _ _ Ho)) as [tk [M _]]. rewrite app_assoc, M, <- app_assoc. apply in_or_app. right. exact Hr.
  - destruct o; try (exists st; cbn [senses]; split; [reflexivity|exact HW]). cbn [senses]. cbv zeta. set (tp := prop_time (e_state e1)).
    assert (forall i g r, nth_error (f_corrs f) i = Some g -> used_by g i e (ORunOnce l) e1 = Some r -> always_right T W g r) as HU.
    { intros i g r Hi Hr. apply (HA i g r Hi). apply used_in in Hr. cbn [flat_map]. rewrite app_assoc. apply in_or_app. left. exact Hr. }
    assert (forall i g r, nth_error (f_corrs f) i = Some g -> used_by g i e (ORunOnce l) e1 = Some r -> reading_exact g (T tp) st r) as HR.
    { intros i g r Hi Hr. apply right_exact; [eapply HU; eauto|exact HW]. }
    destruct (Classical_Prop.classic (exists i g m, nth_error (f_corrs f) i = Some (GLeg g) /\ used_by (GLeg g) i e (ORunOnce l) e1 = Some (Datatypes.inr m))) as [(i & g & m & H1 & H2)|HN].
    + exists (stand (T tp) m st). split; [|eapply stand_W; [eapply (HU i (GLeg g)); eauto|exact HW]]. split; [exact HR|]. split.
      * intros j g' m' H3 H4. pose proof (leg_unique _ _ _ _ _ HL H1 H3) as <-. rewrite H1 in H3. injection H3 as <-. rewrite H2 in H4. injection H4 as <-. reflexivity.
      * intros HN. exfalso. exact (HN i g m H1 H2).
    + exists st. split; [|exact HW]. split; [exact HR|]. split; [|reflexivity]. intros i g m H1 H2. exfalso. apply HN. eauto.
Qed.
Lemma steady_run : forall os e e' st, set_of f e -> est_run e os = Ok e' -> all_right e os -> at_W st -> exists st', sensing f T e os st st' /\ at_W st'.
Proof.
  induction os as [|o os IH]; intros e e' st HS E HA HW; [exists st; split; [reflexivity|exact HW]|]. cbn [est_run foldM] in E. destruct (est_step e o) as [e1|] eqn:E1; [|discriminate]. cbn [bind] in E.
  destruct (steady_step e o e1 os st HS E1 HA HW) as [HA1 (st1 & S1 & W1)]. destruct (IH e1 e' st1 (set_step _ _ _ _ HS E1) E HA1 W1) as (st' & S2 & W2).
  exists st'. split; [|exact W2]. exists e1, st1. auto.
Qed.
End Steady.

Lemma thm_steady f pre l post e1 e2 T W t0 : reachable f ((pre ++ [OInitState l]) ++ post) e2 -> est_run (build f) (pre ++ [OInitState l]) = Ok e1 -> e_enabled e1 = true -> ~ In OClear post ->
  stprop (e_state e1) = Some t0 -> pose_of (e_state e1) = T t0 -> imus_exact f (gbias (e_state e1)) (abias (e_state e1)) T t0 (imu_queue e1 ++ imus post) ->
  (forall i g r, nth_error (f_corrs f) i = Some g -> In r (queue_of e1 i ++ flat_map (delivered g i) post) -> always_right T W g r) ->
  on_truth T (e_state e2) /\ gbias (e_state e2) = gbias (e_state e1) /\ abias (e_state e2) = abias (e_state e1) /\
  (forall c id w, In (CLeg c) (e_corrs e2) -> ppos c (e_heap e2) (e_state e2) id = Some w -> w = W id) /\ Forall (on_truth T) (published is_filter_op e1 post).
Proof.
  intros HR E1 He HN Ht HX HI HA. pose proof HR as (HC & _ & _ & ER).
  assert (est_run e1 post = Ok e2) as E2. { unfold est_run in *. rewrite foldM_app, E1 in ER. exact ER. }
  destruct (steady_run f T W (proj2 (proj2 HC)) post e1 e2 no_feet (set_run f _ _ _ (set_build f) E1) E2 HA) as (st' & HS & HW); [discriminate|].
  destruct (thm_perfect f pre l post e1 e2 T t0 st' HR E1 He HN Ht HX HI HS) as (A1 & A2 & A3 & A4 & A5).
  do 3 (split; [assumption|]). split; [|exact A5]. intros c id w Hin Hp. rewrite (A4 c id Hin) in Hp. exact (HW id w Hp).
Qed.
