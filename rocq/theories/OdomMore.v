(** Log, exactness and counterexamples of the wheel odometry. *)
From Coq Require Import Reals ZArith List Bool Arith Lia Lra.
From Verif Require Import Res Vec3 Mat Spec LieGroup LieSO3 LieThms RobotState SpecFilter SpecProp PropagationExact Imu VelCorr ImuFilter Quat Estimator WheelOdom SpecOdom OdomThms.
Import ListNotations.
Local Open Scope R_scope.

(** ** the log *)
Lemma apart_snoc d ts last t : (ts = [] \/ hd_error (rev ts) = Some last) -> apart d ts -> d <= t - last -> apart d (ts ++ [t]).
Proof.
  intros H A D. induction ts as [|x [|y r] IH]; [exact I| |].
  - destruct H as [H|H]; [discriminate|]. cbn in H. injection H as ->. cbn. auto.
  - cbn [app apart] in *. destruct A as [A1 A2]. split; [exact A1|]. apply IH; [|exact A2]. right. destruct H as [H|H]; [discriminate|]. cbn [rev] in H. cbn [rev].
    destruct (rev r ++ [y]) eqn:Q; [destruct (rev r); discriminate|]. exact H.
Qed.
Lemma line_ok_app ps y x : line_ok ps x -> line_ok (ps ++ y) x.
Proof. intros (pre & post & A & v & -> & D & Q). exists pre, (post ++ y), A, v. rewrite app_assoc. auto. Qed.
Lemma log_times_snoc r : forall ts last t, log_times r last (ts ++ [t]) = log_times r last ts ++
  (if Req_EM_T r 0 then [] else if Rle_dec (1 / r) (t - List.last (log_times r last ts) last) then [t] else []).
Proof.
  induction ts as [|x ts IH]; intros last t; cbn [app log_times List.last].
  - destruct (Req_EM_T r 0); [reflexivity|]. destruct (Rle_dec _ _); reflexivity.
  - destruct (Req_EM_T r 0); [reflexivity|]. destruct (Rle_dec (1 / r) (x - last)); rewrite IH; [|reflexivity].
    cbn [app]. destruct (log_times r x ts) as [|y l] eqn:E; [reflexivity|].
    assert (forall (l : list R) y a b, List.last (y :: l) a = List.last (y :: l) b) as HL. { clear. induction l as [|z l IH]; intros; [reflexivity|]. exact (IH z a b). }
    change (List.last (x :: y :: l) last) with (List.last (y :: l) last). rewrite (HL l y x last). reflexivity.
Qed.
Definition sample_times (ps : list (vmeas * avmeas)) : list R := map (fun p => vm_t (fst p)) (tl ps).
Definition log_all (r : R) (ps : list (vmeas * avmeas)) (o : odom) : Prop :=
  if wo_logger o then map ltime (wo_lines o) = log_times r 0 (sample_times ps) /\ wo_last o = List.last (map ltime (wo_lines o)) 0 else wo_lines o = [].
Definition log_inv (r : R) (ps : list (vmeas * avmeas)) (o : odom) : Prop :=
  log_all r ps o /\ wo_rate o = r /\ (wo_lines o = [] \/ hd_error (rev (map ltime (wo_lines o))) = Some (wo_last o)) /\
  apart (1 / r) (map ltime (wo_lines o)) /\ Forall (line_ok ps) (wo_lines o) /\ (wo_logger o = false -> wo_lines o = []).
Lemma thm_odometry_log b rate l : (forall m, In m (pushed_v l) -> vm_t m <> 0) -> let r := match rate with Some r => r | None => 10 end in exists o ps, wo_run (WheelOdometry [] [] b rate) l = Ok o /\
  pushed_v l = map fst ps ++ wo_vq o /\ pushed_a l = map snd ps ++ wo_aq o /\
  map ltime (wo_lines o) = (if b then log_times r 0 (map (fun p => vm_t (fst p)) (tl ps)) else []) /\
  apart (1 / r) (map ltime (wo_lines o)) /\ Forall (line_ok ps) (wo_lines o).
Proof.
  intros NZ r. assert (exists o ps, wo_run (WheelOdometry [] [] b rate) l = Ok o /\ pushed_v l = map fst ps ++ wo_vq o /\ pushed_a l = map snd ps ++ wo_aq o /\
    (wo_logger o = b /\ top (sX (wo_s o)) /\ stype (wo_s o) = WorldCentric) /\
    ((ps = [] /\ wo_prev o = 0 /\ sX (wo_s o) = meye 5) \/ (wo_prev o <> 0 /\ st (wo_s o) = Some (wo_prev o) /\ dead_reckoning ps (wo_prev o) (getM3 (sX (wo_s o)) 0 0) (getV3 (sX (wo_s o)) 0 3) (getV3 (sX (wo_s o)) 0 4))) /\ log_inv r ps o) as (o & ps & E & V & A & (L & _) & _ & H0 & _ & _ & H1 & H2 & H3).
  2:{ exists o, ps. do 3 (split; [assumption|]). split; [|auto]. unfold log_all in H0. rewrite L in H0. destruct b; [apply H0|rewrite H0; reflexivity]. }
  revert NZ. induction l as [|x l IH] using rev_ind; intros NZ.
  - eexists _, []. split; [reflexivity|]. split; [reflexivity|]. split; [reflexivity|]. split; [repeat split|]. split; [left; repeat split|]. split; [unfold log_all; cbn; destruct b; auto|]. split; [reflexivity|]. split; [left; reflexivity|]. split; [exact I|]. split; [constructor|reflexivity].
  - destruct IH as (o & ps & E & V & A & (Lb & T & W) & H & LI); [intros m Hm; apply NZ; rewrite pushed_v_app; apply in_app_iff; auto|].
    assert (forall m, In m (wo_vq o) -> vm_t m <> 0) as NZ'. { intros m Hm. apply NZ. rewrite pushed_v_app. apply in_app_iff. left. rewrite V. apply in_app_iff. auto. }
    unfold wo_run in *. rewrite foldM_app, E. cbn [bind foldM]. rewrite pushed_v_app, pushed_a_app, V, A. destruct x as [m|a|]; cbn [wo_step].
    + eexists _, ps. split; [reflexivity|]. cbn. rewrite app_nil_r, app_assoc. repeat split; auto; try apply T; apply LI.
    + eexists _, ps. split; [reflexivity|]. cbn. rewrite app_nil_r, app_assoc. repeat split; auto; try apply T; apply LI.
    + unfold WO_RunOnce. destruct (wo_vq o) as [|m vq] eqn:Ev; [exists o, ps; split; [reflexivity|]; rewrite !app_nil_r, Ev, ?app_nil_r; auto 7|].
      destruct (wo_aq o) as [|a aq] eqn:Ea; [exists o, ps; split; [reflexivity|]; rewrite ?Ev, ?Ea, ?app_nil_r; auto 7|].
      cbn [wo_set_queues wo_prev wo_s]. assert (vm_t m <> 0) as NZm by (apply NZ'; left; reflexivity). destruct H as [(-> & P0 & X0)|(P0 & T0 & D)].
      * destruct (Req_EM_T (wo_prev o) 0); [|contradiction]. eexists _, [(m, a)]. split; [reflexivity|]. rewrite !app_nil_r. cbn. split; [reflexivity|]. split; [reflexivity|]. split; [auto|]. split.
        -- right. split; [exact NZm|]. split; [reflexivity|]. rewrite X0. destruct meye5 as (-> & -> & ->). apply DR_first.
        -- destruct LI as (L0 & L1 & L2 & L3 & L4 & L5). split; [exact L0|]. split; [exact L1|]. split; [exact L2|]. split; [exact L3|]. split; [|exact L5]. cbn. eapply Forall_impl; [|exact L4]. intros y Hy. exact (line_ok_app [] _ _ Hy).
      * destruct (Req_EM_T (wo_prev o) 0); [contradiction|]. destruct (Integrate_eq (wo_s o) (vm_v m) (av_w a) (vm_t m - wo_prev o) _ T T0) as (F & s' & HE & HI & T' & W' & TT & R1 & R2 & R3 & _).
        rewrite HI. cbn [bind]. replace (wo_prev o + (vm_t m - wo_prev o)) with (vm_t m) in TT by ring.
        destruct (LogPose_eq (wo_set_state (wo_set_queues o vq aq) s' (vm_t m)) (vm_t m) T' TT) as (o' & -> & E1 & E2 & E3 & E4 & E5 & E6 & LG). cbn in E1, E2, E3, E4, E5, E6. cbn [bind]. exists o', (ps ++ [(m, a)]). split; [reflexivity|].
        assert (dead_reckoning (ps ++ [(m, a)]) (vm_t m) (getM3 (sX s') 0 0) (getV3 (sX s') 0 3) (getV3 (sX s') 0 4)) as D' by (rewrite R1, R2, R3; eapply DR_next; eauto).
        rewrite E1, E2, E3, E4, !map_app, !app_nil_r. cbn. rewrite <- !app_assoc. split; [reflexivity|]. split; [reflexivity|]. split; [split; [congruence|]; split; [exact T'|congruence]|]. split; [right; auto|].
        destruct LI as (L0 & L1 & L2 & L3 & L4 & L5).
        assert (ps <> []) as NP by (intros ->; inversion D; destruct l0; discriminate).
        assert (sample_times (ps ++ [(m, a)]) = sample_times ps ++ [vm_t m]) as ST.
        { unfold sample_times. destruct ps as [|p0 ps0]; [contradiction|]. cbn [app tl]. rewrite map_app. reflexivity. }
        assert (Forall (line_ok (ps ++ [(m, a)])) (wo_lines o)) as L4' by (eapply Forall_impl; [|exact L4]; intros y Hy; apply line_ok_app; exact Hy).
        unfold log_inv. rewrite E5, E6. split.
        { unfold log_all in *. rewrite E5. destruct (wo_logger o) eqn:EL.
          - destruct L0 as [L0 L0']. rewrite ST, log_times_snoc, <- L0, <- L0'. destruct LG as [(G1 & G2 & G3)|(B & p & _ & _ & _ & G4 & G5 & G6 & G7)]; cbn in *.
            + rewrite G1, G2. destruct (Req_EM_T r 0); [rewrite app_nil_r; auto|]. destruct (Rle_dec _ _); [|rewrite app_nil_r; auto]. exfalso. rewrite L1 in G3. destruct (G3 EL); contradiction.
            + rewrite G6, G7, map_app. cbn [map]. rewrite L1 in G4, G5. destruct (Req_EM_T r 0); [contradiction|]. destruct (Rle_dec _ _); [|contradiction]. split; [reflexivity|]. rewrite last_last. reflexivity.
          - destruct LG as [(G1 & _)|(B & p & _ & _ & G3 & _)]; cbn in *; congruence. }
        destruct LG as [(G1 & G2 & _)|(B & p & G1 & G2 & G3 & G4 & G5 & G6 & G7)].
        -- cbn in G1, G2. rewrite G1, G2. auto.
        -- cbn in G1, G2, G3, G4, G5, G6, G7. rewrite G6, G7. split; [exact L1|]. rewrite map_app. cbn [map]. split; [right; rewrite rev_app_distr; reflexivity|].
           split; [apply (apart_snoc _ _ (wo_last o)); [destruct L2 as [->|L2]; auto|exact L3|rewrite <- L1; exact G5]|]. split; [|intros Hb; congruence].
           apply Forall_app. split; [exact L4'|]. constructor; [|constructor]. exists (ps ++ [(m, a)]), [], (getM3 (sX s') 0 0), (getV3 (sX s') 0 3). rewrite app_nil_r. split; [reflexivity|].
           unfold get_world_rotation, get_world_position, get_rotation, get_position in G1, G2. rewrite W', W in G1, G2. destruct T' as [N1 N2]. rewrite cgetM3_ok in G1 by (rewrite ?N1, ?N2; lia). rewrite cgetV3_ok in G2 by (rewrite ?N1, ?N2; lia). cbn [bind] in G1, G2. injection G1 as <-. injection G2 as <-. split; [exact D'|reflexivity].
Qed.
(** ** straight motion is exact *)
Lemma const_of_deriv0 f : (forall s, derivable_pt_lim f s 0) -> forall x y, f x = f y.
Proof.
  intros H. assert (derivable f) as pr by (intros s; exists 0; apply H). intros x y. apply (null_derivative_1 f pr). intros s. apply derive_pt_eq_0. apply H.
Qed.
Lemma vconst f : (forall s, vderiv f s vzero) -> forall x y, f x = f y.
Proof.
  intros H x y. assert (forall i, (i < 3)%nat -> vget (f x) i = vget (f y) i) as Q.
  { intros i Hi. apply (const_of_deriv0 (fun s => vget (f s) i)). intros s. replace 0 with (vget vzero i) by (destruct i as [|[|[|i]]]; reflexivity). apply H. exact Hi. }
  pose proof (Q 0%nat ltac:(lia)). pose proof (Q 1%nat ltac:(lia)). pose proof (Q 2%nat ltac:(lia)). destruct (f x), (f y). cbn in *. congruence.
Qed.
Lemma thm_straight Rb pb w v dt : cross w v = vzero -> (forall s, mderiv Rb s (Rb s *m crossm w)) -> (forall s, vderiv pb s (Rb s *v v)) -> pb dt = pb 0 +v dt *s (Rb 0 *v v).
Proof.
  intros C HR Hp. assert (forall s, Rb s *v v = Rb 0 *v v) as Q.
  { intros s. apply (vconst (fun s => Rb s *v v)). intros s'. pose proof (vderiv_mv Rb s' _ v (HR s')) as V. replace vzero with (Rb s' *m crossm w *v v); [exact V|].
    transitivity (Rb s' *v cross w v); [|rewrite C; ring3]. generalize (Rb s'). intros. unfold crossm. ring3. }
  pose (g := fun s => pb s +v s *s (vneg (Rb 0 *v v))). assert (forall s, vderiv g s vzero) as G.
  { intros s. unfold g. set (u := Rb 0 *v v). assert (vderiv (fun s => s *s vneg u) s (vneg u)) as L.
    { intros i Hi. replace (vget (vneg u) i) with (1 * vget (vneg u) i) by ring. pose proof (derivable_pt_lim_scal id (vget (vneg u) i) s 1 (derivable_pt_lim_id s)) as K. unfold mult_real_fct, id in K.
      intros e He. destruct (K e He) as (d & Hd). exists d. intros h Hh1 Hh2. specialize (Hd h Hh1 Hh2). rewrite !vget_scal. replace ((s + h) * vget (vneg u) i - s * vget (vneg u) i) with (vget (vneg u) i * (s + h) - vget (vneg u) i * s) by ring. rewrite (Rmult_comm 1). exact Hd. }
    pose proof (vderiv_add _ _ s _ _ (Hp s) L) as V. rewrite Q in V. fold u in V. replace vzero with (u +v vneg u) by ring3. exact V. }
  pose proof (vconst g G dt 0) as E. unfold g in E. revert E. generalize (Rb 0 *v v) (pb dt) (pb 0). intros [] [] []. unfold vadd, vscal, vneg. cbn. intros E. injection E. intros. f_equal; lra.
Qed.
(** ** counterexamples *)
Lemma runs_from o m a vq aq t : wo_vq o = m :: vq -> wo_aq o = a :: aq -> wo_prev o <> 0 -> top (sX (wo_s o)) -> stype (wo_s o) = WorldCentric -> st (wo_s o) = Some t -> wo_logger o = false ->
  exists o', WO_RunOnce o = Ok o' /\ wo_vq o' = vq /\ wo_aq o' = aq /\ wo_prev o' = vm_t m /\ top (sX (wo_s o')) /\ stype (wo_s o') = WorldCentric /\ st (wo_s o') = Some (t + (vm_t m - wo_prev o)) /\ wo_logger o' = false /\
    getV3 (sX (wo_s o')) 0 4 = getV3 (sX (wo_s o)) 0 4 +v (vm_t m - wo_prev o) *s (getM3 (sX (wo_s o)) 0 0 *v vm_v m).
Proof.
  intros E1 E2 P T W S L. unfold WO_RunOnce. rewrite E1, E2. cbn [wo_set_queues wo_prev wo_s]. destruct (Req_EM_T (wo_prev o) 0); [contradiction|].
  destruct (Integrate_eq (wo_s o) (vm_v m) (av_w a) (vm_t m - wo_prev o) _ T S) as (E & s' & _ & HI & T' & W' & TT & _ & _ & R3 & _). rewrite HI. cbn [bind].
  destruct (LogPose_eq (wo_set_state (wo_set_queues o vq aq) s' (vm_t m)) _ T' TT) as (o' & -> & F1 & F2 & F3 & F4 & F5 & _). cbn in F1, F2, F3, F4, F5. exists o'. rewrite F1, F2, F3, F4, F5. repeat split; auto; try apply T'. congruence.
Qed.
Lemma first_run m a vq aq : exists o', WO_RunOnce (WheelOdometry (m :: vq) (a :: aq) false None) = Ok o' /\ wo_vq o' = vq /\ wo_aq o' = aq /\ wo_prev o' = vm_t m /\ sX (wo_s o') = meye 5 /\ stype (wo_s o') = WorldCentric /\ st (wo_s o') = Some (vm_t m) /\ wo_logger o' = false.
Proof. unfold WO_RunOnce. cbn [WheelOdometry wo_vq wo_aq wo_set_queues wo_prev]. destruct (Req_EM_T 0 0); [|contradiction]. eexists. split; [reflexivity|]. repeat split. Qed.
Lemma second_run o m a vq aq t : wo_vq o = m :: vq -> wo_aq o = a :: aq -> wo_prev o = t -> t <> 0 -> sX (wo_s o) = meye 5 -> stype (wo_s o) = WorldCentric -> st (wo_s o) = Some t -> wo_logger o = false ->
  exists o', WO_RunOnce o = Ok o' /\ wo_vq o' = vq /\ wo_aq o' = aq /\ get_world_position (wo_s o') = Ok ((vm_t m - t) *s vm_v m).
Proof.
  intros E1 E2 P NZ X W S L. destruct (runs_from o m a vq aq t E1 E2) as (o' & H1 & H2 & H3 & H4 & H5 & H6 & H7 & H8 & H9); auto; [congruence|rewrite X; split; reflexivity|].
  exists o'. split; [exact H1|]. split; [exact H2|]. split; [exact H3|]. unfold get_world_position, get_position. destruct H5 as [N1 N2]. rewrite cgetV3_ok by (rewrite ?N1, ?N2; lia). cbn [bind]. rewrite H6, H9, X, P. destruct meye5 as (-> & _ & ->). f_equal. ring3.
Qed.
Definition rotz (a : R) : M3 := mkM (cos a) (- sin a) 0 (sin a) (cos a) 0 0 0 1.
Lemma ds f t d d' : derivable_pt_lim f t d -> d = d' -> derivable_pt_lim f t d'. Proof. intros H <-. exact H. Qed.
Lemma dsin k t : derivable_pt_lim (fun s => sin (k * s)) t (k * cos (k * t)).
Proof. eapply ds; [apply (derivable_pt_lim_comp (fun s => k * s) sin); [|apply derivable_pt_lim_sin]|]. - eapply ds; [apply (derivable_pt_lim_scal id k t 1 (derivable_pt_lim_id t))|]. reflexivity. - ring. Qed.
Lemma dcos k t : derivable_pt_lim (fun s => cos (k * s)) t (- (k * sin (k * t))).
Proof. eapply ds; [apply (derivable_pt_lim_comp (fun s => k * s) cos); [|apply derivable_pt_lim_cos]|]. - eapply ds; [apply (derivable_pt_lim_scal id k t 1 (derivable_pt_lim_id t))|]. reflexivity. - ring. Qed.
Lemma thm_turning_refuted : exists m1 m2 a1 a2 o1 o2 p (Rb : R -> M3) (pb : R -> V3),
  WO_RunOnce (WheelOdometry [m1; m2] [a1; a2] false None) = Ok o1 /\ WO_RunOnce o1 = Ok o2 /\ wo_vq o2 = [] /\ get_world_position (wo_s o2) = Ok p /\
  vm_t m1 <> 0 /\ vm_t m1 < vm_t m2 /\
  (forall s, mderiv Rb s (Rb s *m crossm (av_w a2))) /\ (forall s, vderiv pb s (Rb s *v vm_v m2)) /\ Rb (vm_t m1) = mid /\ pb (vm_t m1) = vzero /\ pb (vm_t m2) <> p.
Proof.
  set (m1 := mkVM 1 vzero). set (m2 := mkVM 2 (mkV 1 0 0)). set (a1 := mkAV 1 vzero). set (a2 := mkAV 2 (mkV 0 0 PI)).
  destruct (first_run m1 a1 [m2] [a2]) as (o1 & H1 & H2 & H3 & H4 & H5 & H6 & H7 & H8).
  destruct (second_run o1 m2 a2 [] [] 1 H2 H3 H4 ltac:(lra) H5 H6 H7 H8) as (o2 & K1 & K2 & K3 & K4).
  exists m1, m2, a1, a2, o1, o2. eexists. pose proof PI_RGT_0 as PI0.
  exists (fun s => rotz (PI * s - PI)), (fun s => mkV (sin (PI * s - PI) / PI) ((1 - cos (PI * s - PI)) / PI) 0).
  split; [exact H1|]. split; [exact K1|]. split; [exact K2|]. split; [exact K4|]. cbn [vm_t vm_v m1 m2 a2 av_w]. split; [lra|]. split; [lra|].
  assert (forall s, derivable_pt_lim (fun x => PI * x - PI) s PI) as L.
  { intros s. eapply ds; [apply (derivable_pt_lim_minus (fun x => PI * x) (fun _ => PI)); [|apply derivable_pt_lim_const]|]. - apply (derivable_pt_lim_scal id PI s 1 (derivable_pt_lim_id s)). - ring. }
  assert (forall s, derivable_pt_lim (fun x => sin (PI * x - PI)) s (PI * cos (PI * s - PI))) as S1.
  { intros s. eapply ds; [apply (derivable_pt_lim_comp (fun x => PI * x - PI) sin s PI (cos (PI * s - PI)) (L s)); apply derivable_pt_lim_sin|]. ring. }
  assert (forall s, derivable_pt_lim (fun x => cos (PI * x - PI)) s (- (PI * sin (PI * s - PI)))) as C1.
  { intros s. eapply ds; [apply (derivable_pt_lim_comp (fun x => PI * x - PI) cos s PI (- sin (PI * s - PI)) (L s)); apply derivable_pt_lim_cos|]. ring. }
  split; [|split; [|split; [|split]]].
  - intros s i j Hi Hj. pose proof (derivable_pt_lim_opp _ _ _ (S1 s)) as N1.
    destruct i as [|[|[|i]]]; try lia; destruct j as [|[|[|j]]]; try lia; cbn [mget rotz m00 m01 m02 m10 m11 m12 m20 m21 m22];
    first [eapply ds; [exact (S1 s)|] | eapply ds; [exact (C1 s)|] | eapply ds; [exact N1|] | eapply ds; [apply derivable_pt_lim_const|]]; cbn; ring.
  - intros s i Hi. destruct i as [|[|[|i]]]; try lia; cbn [vget v0 v1 v2].
    + eapply ds; [apply (derivable_pt_lim_mult (fun x => sin (PI * x - PI)) (fun _ => / PI)); [apply S1|apply derivable_pt_lim_const]|]. cbn. field. lra.
    + eapply ds; [apply (derivable_pt_lim_mult (fun x => 1 - cos (PI * x - PI)) (fun _ => / PI)); [apply (derivable_pt_lim_minus (fun _ => 1) (fun x => cos (PI * x - PI))); [apply derivable_pt_lim_const|apply C1]|apply derivable_pt_lim_const]|]. cbn. field. lra.
    + eapply ds; [apply derivable_pt_lim_const|]. cbn. ring.
  - replace (PI * 1 - PI) with 0 by ring. unfold rotz. rewrite cos_0, sin_0, Ropp_0. reflexivity.
  - replace (PI * 1 - PI) with 0 by ring. rewrite cos_0, sin_0. unfold vzero. f_equal; field; lra.
  - replace (PI * 2 - PI) with PI by ring. rewrite cos_PI, sin_PI. intros Q. apply (f_equal v0) in Q. cbn in Q. unfold Rdiv in Q. rewrite Rmult_0_l in Q. lra.
Qed.
Lemma exp_zero : Exp_SO3 vzero = Ok mid.
Proof.
  unfold Exp_SO3, Gamma_SO3. cbn [Z.leb check bind Z.compare]. assert (vnorm vzero = 0) as -> by (unfold vnorm, vdot, vzero; cbn; replace (0 * 0 + 0 * 0 + 0 * 0) with 0 by ring; apply sqrt_0).
  destruct (Rlt_dec 0 TOLERANCE) as [_|N]; [|unfold TOLERANCE in N; lra]. cbn. f_equal. unfold mscal, mid. cbn. f_equal; field.
Qed.
(** a first stamp of zero makes the second sample start the clock again *)
Lemma thm_zero_stamp_refuted : exists m1 m2 m3 a o1 o2 o3 t A v p,
  WO_RunOnce (WheelOdometry [m1; m2; m3] [a; a; a] false None) = Ok o1 /\ WO_RunOnce o1 = Ok o2 /\ WO_RunOnce o2 = Ok o3 /\ wo_vq o3 = [] /\
  vm_t m1 < vm_t m2 /\ vm_t m2 < vm_t m3 /\
  dead_reckoning [(m1, a); (m2, a); (m3, a)] t A v p /\ get_world_position (wo_s o3) <> Ok p.
Proof.
  set (m1 := mkVM 0 (mkV 1 0 0)). set (m2 := mkVM 1 (mkV 1 0 0)). set (m3 := mkVM 2 (mkV 1 0 0)). set (a := mkAV 0 vzero).
  destruct (first_run m1 a [m2; m3] [a; a]) as (o1 & H1 & H2 & H3 & H4 & H5 & H6 & H7 & H8).
  assert (exists o2, WO_RunOnce o1 = Ok o2 /\ wo_vq o2 = [m3] /\ wo_aq o2 = [a] /\ wo_prev o2 = 1 /\ sX (wo_s o2) = meye 5 /\ stype (wo_s o2) = WorldCentric /\ st (wo_s o2) = Some 1 /\ wo_logger o2 = false) as (o2 & K1 & K2 & K3 & K4 & K5 & K6 & K7 & K8).
  { unfold WO_RunOnce. rewrite H2, H3. cbn [wo_set_queues wo_prev wo_s]. destruct (Req_EM_T (wo_prev o1) 0) as [_|N]; [|exfalso; apply N; exact H4]. eexists. split; [reflexivity|]. repeat split; auto. }
  destruct (second_run o2 m3 a [] [] 1 K2 K3 K4 ltac:(lra) K5 K6 K7 K8) as (o3 & G1 & G2 & G3 & G4).
  exists m1, m2, m3, a, o1, o2, o3. do 4 eexists. split; [exact H1|]. split; [exact K1|]. split; [exact G1|]. split; [exact G2|]. split; [cbn; lra|]. split; [cbn; lra|]. split.
  - assert (forall d, Exp_SO3 (d *s av_w a) = Ok mid) as EX. { intros d. replace (d *s av_w a) with vzero; [apply exp_zero|]. unfold a, vscal, vzero. cbn. f_equal; ring. }
    eapply (DR_next [(m1, a); (m2, a)]); [|apply EX]. eapply (DR_next [(m1, a)]); [|apply EX]. apply DR_first.
  - rewrite G4. intros Q. injection Q. cbn. intros. lra.
Qed.
