(** Proofs for C82. *)
From Coq Require Import Reals ZArith List Bool Arith Lia Lra.
From Verif Require Import Res Vec3 Mat MatInv Psd Spec LieGroup LieSO3 RobotState Inekf SpecFilter Imu Propagation SpecProp
  PropagationProofs PropagationThms ImuRest ImuThms Queue VelCorr LegCorr SpecCorr Quat Estimator SpecEst EstInv EstSafe EstPub EstHist EstTime EstQueue
  SpecConv SpecSched Sched ClearThms ClearEx SpecObs ObsEst ObsThms SpecTrack Track TrackEst TrackSteady TrackLeg Kinematics Driver Ros SpecRos Node SpecNode NodeThms SpecPark.
Import ListNotations.
Local Open Scope R_scope.

Definition right_kind (g : corr_cfg) (r : reading) : Prop := match g, r with GVel _, Datatypes.inl _ | GLeg _, Datatypes.inr _ => True | _, _ => False end.
Section Park.
Variables (f : config) (w a : V3) (W : nat -> V3).
Hypothesis HA : accounts_for f w a.
Let rg := mounting f *v w.
Let ra := mounting f *v a +v gravity.
Definition pki (ip : imu_prop) : Prop :=
  ip_static ip = dflt (c_static (f_imu f)) true /\ ip_use_ori ip = false /\ ip_Rib ip = mounting f /\ ip_t ip = lever f /\ Forall (parked_sample w a) (ip_queue ip) /\
  Forall (fun v => v = (rg, ra)) (ip_vec ip) /\ (ip_bias_init ip = true \/ ip_static ip = false -> ip_bg0 ip = rg /\ ip_ba0 ip = ra).
Definition pk (e : est) : Prop := exists ip, e_prop e = Some ip /\ pki ip.

Lemma pk_build : pk (build f).
Proof.
  exists (ImuPropagation [] (f_err f) (f_imu f)). split; [rewrite build_eq; reflexivity|]. destruct HA as [H1 H2]. split; [reflexivity|]. split; [exact H1|]. split; [reflexivity|]. split; [reflexivity|]. split; [constructor|]. split; [constructor|].
  cbn. intros [?|E]; [discriminate|]. rewrite E in H2. exact H2.
Qed.
Lemma cal_parked ip m : ip_static ip = true -> pki ip -> parked_sample w a m -> calib_sample ip m = (rg, ra).
Proof.
  intros Hs (P1 & P2 & P3 & P4 & _) (M1 & M2). destruct HA as [_ H2]. rewrite <- P1, Hs in H2. unfold calib_sample. rewrite P2, P3, P4, M1, M2, H2. unfold rg, ra. f_equal. generalize (mounting f *v a). intros u. unfold g_, gravity, vzero, mid. apply V3_eq; cbn; ring.
Qed.
Lemma sum_const : forall (l : list (V3 * V3)) (x y u v : V3), Forall (fun p => p = (u, v)) l ->
  fold_left (fun s p => s +v fst p) l x = x +v INR (length l) *s u /\ fold_left (fun s p => s +v snd p) l y = y +v INR (length l) *s v.
Proof.
  induction l as [|p l IH]; intros x y u v H; [cbn; split; ring3|]. inversion H as [|? ? -> H2]; subst. cbn [fold_left fst snd]. destruct (IH (x +v u) (y +v v) u v H2) as [-> ->]. cbn [length]. rewrite S_INR. split; ring3.
Qed.
Lemma init_parked ip ip' : pki ip -> InitImuBias ip = Ok ip' -> pki ip'.
Proof.
  intros HP. pose proof HP as (P1 & P2 & P3 & P4 & P5 & P6 & P7). unfold InitImuBias. destruct (ip_static ip) eqn:Es; cbn [negb].
  - destruct (size_lt _ _).
    + destruct (ip_queue ip) as [|m q] eqn:Eq; intros [= <-]; [exact HP|]. inversion P5 as [|? ? M1 M2]; subst. unfold pki. cbn. rewrite Es. do 4 (split; [assumption|]). split; [exact M2|]. split; [|exact P7].
      apply Forall_app. split; [exact P6|]. repeat constructor. exact (cal_parked ip m Es HP M1).
    + destruct (sum_const (ip_vec ip) vzero vzero rg ra P6) as [S1 S2]. rewrite S1, S2. unfold check. destruct (length (ip_vec ip) =? 0)%nat eqn:E0; [discriminate|]. cbn [negb bind]. intros [= <-]. apply Nat.eqb_neq in E0.
      assert (INR (length (ip_vec ip)) <> 0) as Hn by (apply not_0_INR; exact E0). unfold pki. cbn. rewrite Es. do 6 (split; [assumption|]). intros _. split; apply V3_eq; cbn; field; exact Hn.
  - intros [= <-]. unfold pki. cbn. rewrite Es. do 6 (split; [assumption|]). intros _. apply P7. auto.
Qed.
(** before the filter is started *)
Lemma pk_step fut e o e1 : est_ok fut e -> e_enabled e = false -> pk e -> parked_op w a W o -> allowed e o -> est_step e o = Ok e1 ->
  e_enabled e1 = false /\ pk e1 /\ pub1 e e1 = [] \/ exists l, o = OInitState l.
Proof.
  intros HE Hn (ip & Hip & HP) HO Al E.
  assert (uses ROut o = false -> pub1 e e1 = []) as HU by (intros U; eapply pub1_callback; eauto).
  destruct o; cbn [parked_op allowed uses est_step] in *; try contradiction; try congruence.
  - left. rewrite Hip in E. cbn [of_opt bind] in E. injection E as <-. cbn. split; [exact Hn|]. split; [|apply HU; reflexivity]. exists (set_queue ip (ip_queue ip ++ [m])). split; [reflexivity|]. destruct HP as (P1 & P2 & P3 & P4 & P5 & P6 & P7). unfold pki. cbn. do 4 (split; [assumption|]). split; [apply Forall_app; auto|auto].
  - left. injection E as <-. split; [exact Hn|]. split; [exists ip; auto|apply HU; reflexivity].
  - left. injection E as <-. split; [exact Hn|]. split; [exists ip; auto|apply HU; reflexivity].
  - left. unfold InitBias in E. rewrite Hip in E. cbn [of_opt bind] in E. apply bind_inv in E. destruct E as (ip' & Ei & E). injection E as <-. split; [exact Hn|]. split; [exists ip'; split; [reflexivity|eapply init_parked; eauto]|apply HU; reflexivity].
  - right. eauto.
  - left. injection E as <-. split; [exact Hn|]. split; [exists ip; auto|]. unfold pub1. cbn. destruct (e_out e) as [|r l]; [reflexivity|]. apply skipn_all2. cbn. lia.
  - left. injection E as <-. unfold LogPop. destruct (e_pending e), (e_logq e); cbn; (split; [exact Hn|]; split; [exists ip; auto|]); unfold pub1; cbn; apply skip_same.
  - left. pose proof (HU eq_refl) as HU'. pose proof (enabled_step e OLogWrite e1 E) as [_ En]. split; [congruence|]. split; [|exact HU']. exists ip. split; [|exact HP]. clear HU HU' En. unfold LogWrite in E. destruct (e_pending e); [|injection E as <-; exact Hip].
    apply bind_inv in E. destruct E as (t & _ & E). destruct (e_logger e && _); [|injection E as <-; exact Hip].
    repeat (apply bind_inv in E; destruct E as (? & _ & E)). injection E as <-. exact Hip.
Qed.
(** readings: waiting or still to come *)
Definition all_parked (e : est) (os : list op) : Prop := forall i g r, nth_error (f_corrs f) i = Some g -> In r (queue_of e i ++ flat_map (delivered g i) os) -> parked_reading w W r.
Lemma parked_next e o e1 os : set_of f e -> est_step e o = Ok e1 -> all_parked e (o :: os) -> all_parked e1 os.
Proof.
  intros [HS1 HS2] E H i g r Hi Hr. apply (H i g r Hi). cbn [flat_map]. destruct (objs_kind _ _ HS1 i g Hi) as (c & Hc & Ho).
  destruct (corr_step_move g i e o e1 c E Hc (obj_kind _ _ Ho)) as [tk [M _]]. rewrite app_assoc, M, <- app_assoc. apply in_or_app. right. exact Hr.
Qed.
Lemma parked_always T0 g r : right_kind g r -> parked_reading w W r -> T0 = still -> always_right T0 W g r.
Proof.
  destruct g as [g|g], r as [m|m]; cbn [right_kind parked_reading always_right]; try contradiction; intros _ H ->.
  - intros t. cbn [reading_exact]. rewrite H. unfold still. cbn [po_R po_v]. generalize (toRotationMatrix (dflt (g_quat g) (mkQ 1 0 0 0))) (dflt (g_scale g) 1). intros. ring3.
  - intros t id o H1 H2. destruct H as [H _]. unfold still. cbn [po_R po_p]. rewrite (H id o H1 H2). ring3.
Qed.
Lemma rest_exact : forall ms t, Forall (parked_sample w a) ms -> imus_exact f rg ra still t ms.
Proof.
  induction ms as [|m ms IH]; intros t HM; [exact I|]. apply Forall_cons_iff in HM. destruct HM as [[M1 M2] HM2].
  assert (body_rate f rg m = vzero) as ER by (unfold body_rate, rg; rewrite M1; apply vsub_diag).
  assert (body_force f rg ra m = mkV 0 0 (98 / 10)) as EF by (unfold body_force; rewrite ER, M2; unfold ra; generalize (mounting f *v a) (lever f); intros; unfold gravity, vzero; apply V3_eq; cbn; ring).
  split; [|apply IH; exact HM2]. split; [rewrite ER, EF; apply (still_drives (i_t m - t))|left; exact ER].
Qed.
Lemma kind_queue g c r : kind_ok g c -> In r (queued c) -> right_kind g r.
Proof. destruct g, c; cbn; try contradiction; intros _ H; apply in_map_iff in H; destruct H as (x & <- & _); exact I. Qed.
Lemma kind_delivered g i o r : In r (delivered g i o) -> right_kind g r.
Proof. destruct g, o; cbn; try contradiction; try (destruct (Nat.eqb _ _); cbn; [intros [<-|[]]; exact I|contradiction]); intros H; apply in_map_iff in H; destruct H as (x & <- & _); exact I. Qed.
Lemma took_in : forall gs cs l us cs' x, Forall2 obj_of gs cs -> took_all cs l us cs' -> In x (concat us) -> exists i g, nth_error gs i = Some g /\
  In x (match nth_error cs i with Some c => queued c | None => [] end ++ delivered g i (OInitState l)).
Proof.
  induction gs as [|g gs IH]; intros cs l us cs' x HF T Hx; inversion HF as [|? c ? cs0 HO HF0]; subst; destruct us as [|u us], cs' as [|c' cs']; cbn [took_all] in T; try contradiction.
  destruct T as [[T1 _] T2]. cbn [concat] in Hx. apply in_app_or in Hx. destruct Hx as [Hx|Hx].
  - exists 0%nat, g. split; [reflexivity|]. cbn [nth_error]. assert (In x (queued c ++ arriving c (hd_arr l))) as H by (rewrite T1; apply in_or_app; auto).
    assert (delivered g 0 (OInitState l) = arriving c (hd_arr l)) as ->; [|exact H]. pose proof (obj_kind _ _ HO) as K. destruct g, c; try contradiction; cbn; destruct l; reflexivity.
  - destruct (IH cs0 (tl_arr l) us cs' x HF0 T2 Hx) as (i & g' & H1 & H2). exists (S i), g'. split; [exact H1|]. cbn [nth_error]. replace (delivered g' (S i) (OInitState l)) with (delivered g' i (OInitState (tl_arr l))); [exact H2|]. destruct g'; cbn; destruct l as [|? l]; cbn; try reflexivity; destruct i; reflexivity.
Qed.
Lemma pub_any : forall os e, Forall (fun s => pose_of s = still 0) (published is_filter_op e os) -> (forall e', est_run e os = Ok e' -> True) -> ~ In OClear os -> Forall (fun s => pose_of s = still 0) (published any_op e os).
Proof.
  induction os as [|o os IH]; intros e H _ HC; [constructor|]. cbn [published] in *. destruct (est_step e o) as [e1|] eqn:E; [|constructor]. apply Forall_app in H. destruct H as [H1 H2]. apply Forall_app. split; [|apply IH; auto; intros X; apply HC; right; exact X].
  change (any_op o) with true. cbv iota. destruct (is_filter_op o) eqn:F; [exact H1|]. assert (skipn (length (e_out e)) (e_out e1) = []) as ->; [|constructor].
  destruct (uses ROut o) eqn:U; [|exact (pub1_callback e o e1 U E)]. destruct o; try discriminate; [exfalso; apply HC; left; reflexivity|]. cbn in E. injection E as <-. cbn. destruct (e_out e); [reflexivity|]. apply skipn_all2. cbn. lia.
Qed.
Lemma park_run : forall os pre e e2, est_run (build f) pre = Ok e -> reachable f (pre ++ os) e2 -> e_enabled e = false -> pk e -> all_parked e os -> Forall (parked_op w a W) os ->
  Forall (fun s => pose_of s = still 0) (published any_op e os) /\ (e_enabled e2 = true -> pose_of (e_state e2) = still 0).
Proof.
  induction os as [|o os IH]; intros pre e e2 R HR Hn HP HQ HO.
  { split; [constructor|]. destruct HR as (_ & _ & _ & ER). rewrite app_nil_r, R in ER. injection ER as <-. congruence. } inversion HO as [|? ? O1 O2]; subst. pose proof HR as (HC & HS & HPr & ER).
  pose proof (build_ok f _ HC HS) as HB. destruct (run_prefix _ (o :: os) _ _ HB HPr R) as [K P]. cbn [protocol] in P. destruct P as [Al P].
  assert (exists e1, est_step e o = Ok e1 /\ est_run e1 os = Ok e2) as (e1 & E1 & E2). { unfold est_run in *. rewrite foldM_app, R in ER. cbn [bind foldM] in ER. destruct (est_step e o); [|discriminate]. eauto. }
  assert (set_of f e) as SO by (eapply set_run; [apply set_build|exact R]).
  assert (est_run (build f) (pre ++ [o]) = Ok e1) as R1. { unfold est_run in *. rewrite foldM_app, R. cbn [bind foldM]. rewrite E1. reflexivity. }
  assert (reachable f ((pre ++ [o]) ++ os) e2) as HR1 by (rewrite <- app_assoc; exact HR).
  cbn [published]. rewrite E1. change (any_op o) with true. cbv iota. fold (pub1 e e1). rewrite Forall_app.
  destruct (pk_step _ e o e1 K Hn HP O1 Al E1) as [(N1 & P1 & ->)|(l & ->)].
  - destruct (IH (pre ++ [o]) e1 e2) as [A B]; eauto using parked_next.
  - destruct HP as (ip & Hip & HP). pose proof HP as (P1 & P2 & P3 & P4 & P5 & P6 & P7). cbn [est_step] in E1. pose proof (InitState_spec _ e l ip e1 K Hn Hip E1) as SP. destruct (ip_queue ip) as [|m q] eqn:Eq.
    + subst e1. assert (pub1 e (e_set_corrs e (deliver_all (e_corrs e) l)) = []) as -> by (unfold pub1; cbn; apply skip_same). destruct (IH _ _ _ R1 HR1) as [A B]; [exact Hn|exists ip; auto|eapply (parked_next e (OInitState l)); eauto|exact O2|auto].
    + destruct SP as (us & TK & He & Hp & Ho & _ & _ & Wf & H1 & H2 & H3 & H4 & H5 & _ & H6). rewrite P2 in H1.
      assert (BiasInitialized e = Ok true) as BI by (cbn [allowed] in Al; apply Al). unfold BiasInitialized in BI. rewrite Hip in BI. cbn in BI. injection BI as BI. destruct (P7 (or_introl BI)) as [B1 B2]. apply Forall_cons_iff in P5. destruct P5 as [M1 M2].
      assert (pose_of (e_state e1) = still 0) as PO.
      { unfold pose_of, still. rewrite H1, H2. f_equal. destruct (newest (concat us)) as [x|] eqn:En; [|apply H6]. destruct H6 as [-> _]. apply newest_in in En. destruct (took_in _ _ _ _ _ _ (proj1 SO) TK En) as (i & g & G1 & G2).
        assert (parked_reading w W x) as PX. { apply (HQ i g x G1). cbn [flat_map]. unfold queue_of. apply in_app_or in G2. apply in_or_app. destruct G2 as [G2|G2]; [left; exact G2|right; apply in_or_app; left; exact G2]. }
        rewrite H1. destruct M1 as [Mw _]. rewrite Mw. destruct x as [x|x]; cbn [r_vel parked_reading] in *; [rewrite PX|rewrite (proj2 PX)]; ring3. }
      assert (~ In OClear os) as NC. { intros X. rewrite Forall_forall in O2. exact (O2 _ X). }
      destruct (thm_steady f pre l os e1 e2 still W (i_t m) HR1 R1 He NC H5 PO) as ((te & _ & OT) & _ & _ & _ & H).
      * rewrite H3, H4, B1, B2. apply rest_exact. apply Forall_app. split; [unfold imu_queue; rewrite Hp; cbn; exact M2|]. clear -O2. induction O2 as [|o os H HF IH]; [constructor|]. rewrite imus_cons. apply Forall_app. split; [|exact IH]. destruct o; cbn in *; repeat constructor; apply H.
      * intros i g r Hi Hr. assert (parked_reading w W r) as PR by (eapply (parked_next e (OInitState l)); eauto). apply parked_always; [|exact PR|reflexivity].
        apply in_app_or in Hr. destruct Hr as [Hr|Hr]; [|apply in_flat_map in Hr; destruct Hr as (o & _ & Hr); eapply kind_delivered; exact Hr].
        destruct (objs_kind _ _ (proj1 (set_run f _ _ _ (set_build f) R1)) i g Hi) as (c & Hc & Hk). unfold queue_of in Hr. rewrite Hc in Hr. eapply kind_queue; [eapply obj_kind; exact Hk|exact Hr].
      * split; [|intros _; exact OT]. split; [unfold pub1; rewrite Ho, skipn_app, skipn_all, Nat.sub_diag; cbn; repeat constructor; exact PO|]. apply pub_any; [|auto|exact NC]. eapply Forall_impl; [|exact H]. intros s (t & _ & E). exact E.
Qed.
End Park.

Lemma thm_parked f w a W os e : reachable f os e -> accounts_for f w a -> Forall (parked_op w a W) os ->
  Forall (fun s => pose_of s = mkPose mid vzero vzero) (published any_op (build f) os) /\ (e_enabled e = true -> pose_of (e_state e) = mkPose mid vzero vzero).
Proof.
  intros HR HA HO. apply (park_run f w a W HA os [] (build f) e); [reflexivity|exact HR|rewrite build_eq; reflexivity|apply pk_build; exact HA| |exact HO].
  intros i g r Hi Hr. apply in_app_or in Hr. destruct Hr as [Hr|Hr].
  - exfalso. unfold queue_of in Hr. rewrite build_eq in Hr. cbn [e_corrs e_set_corrs e_set] in Hr. rewrite nth_error_map, Hi in Hr. destruct g; cbn in Hr; exact Hr.
  - apply in_flat_map in Hr. destruct Hr as (o & Ho & Hr). rewrite Forall_forall in HO. specialize (HO o Ho). destruct g, o; cbn [delivered parked_op] in *; try contradiction;
      try (destruct (Nat.eqb _ _); [destruct Hr as [<-|[]]; exact HO|contradiction]);
      (apply in_map_iff in Hr; destruct Hr as (x & <- & Hx); destruct (nth_in_or_default i l no_arr) as [Hn|Hn]; [destruct (HO _ Hn) as [A1 A2]; auto|rewrite Hn in Hx; contradiction]).
Qed.

(** ** nodes *)
Lemma speed_parked sn w a m rs : parked_message w a m -> speed_for sn m rs -> Forall (fun v => vm_v v = vzero) rs.
Proof.
  destruct m, sn; cbn [parked_message speed_for]; intros H S; try contradiction; subst; try constructor; try reflexivity; try constructor.
  - destruct S as (e0 & e1 & e2 & e3 & r & E & ->). rewrite E in H. inversion H as [|? ? H0 Ha]; subst. inversion Ha as [|? ? H1 Hb]; subst. inversion Hb as [|? ? H2 Hc]; subst. inversion Hc as [|? ? H3 Hd]; subst. repeat constructor. cbn. unfold drive_speed. apply V3_eq; cbn; field.
  - destruct S as [[_ ->]|(e0 & e1 & e2 & r & E & ->)]; [constructor|]. rewrite E in H. inversion H as [|? ? H0 Ha]; subst. inversion Ha as [|? ? H1 Hb]; subst. repeat constructor. cbn. unfold drive_speed. apply V3_eq; cbn; field.
Qed.
Lemma reads_all {A} (f : rosmsg -> list A -> Prop) (Q : A -> Prop) ms rs : (forall m r, In m ms -> f m r -> Forall Q r) -> reads f ms rs -> Forall Q rs.
Proof.
  intros H (rss & F & ->). induction F as [|m r ms rss Hm F IH]; cbn; [constructor|]. apply Forall_app. split; [eapply H; [left; reflexivity|exact Hm]|apply IH; intros; eapply H; [right|]; eauto].
Qed.
Lemma thm_parked_node k P vs n w a : program_ok k P -> messages_ok (np_sensor P) (messages vs) -> accounts_for (np_est P) w a -> Forall (parked_event w a) vs -> node_run P vs = Ok n ->
  Forall at_origin (pb_sent (n_pub n)) /\ Forall (fun s => pose_of s = mkPose mid vzero vzero) (e_out (n_est n)).
Proof.
  intros HP HM HA HV R. pose proof (thm_node k P vs HP HM) as T. rewrite R in T. destruct T as (os & ss & HR & HI & HS & HL & HB & PU & SA).
  assert (forall m, In m (messages vs) -> parked_message w a m) as MP.
  { intros m Hm. unfold messages in Hm. apply in_flat_map in Hm. destruct Hm as (v & Hv & Hm). destruct v; try contradiction. destruct Hm as [<-|[]]. rewrite Forall_forall in HV. exact (HV _ Hv). }
  assert (Forall (parked_op w a (fun _ => vzero)) os) as PO.
  { apply Forall_forall. intros o Ho. pose proof (proj1 (Forall_forall _ _) HB o Ho) as HBo. destruct o; cbn [parked_op made_by] in *; try exact I; try contradiction.
    - assert (In m (imus os)) as Hm by (clear -Ho; induction os as [|x os IH]; [contradiction|]; rewrite imus_cons; apply in_or_app; destruct Ho as [->|Ho]; [left; left; reflexivity|right; auto]).
      assert (forall x, In x (imu_messages (messages vs)) -> im_w x = w /\ im_a x = a) as HX. { intros x Hx. unfold imu_messages in Hx. apply in_flat_map in Hx. destruct Hx as (r & Hr & Hx). destruct r; try contradiction. destruct Hx as [<-|[]]. exact (MP _ Hr). }
      clear -HI Hm HX. induction HI as [|x y l l' H F IH]; [contradiction|]. destruct Hm as [<-|Hm]; [|apply IH; auto; intros; apply HX; right; auto]. destruct (HX x (or_introl eq_refl)) as [X1 X2]. destruct H as (_ & H1 & H2 & _). split; congruence.
    - assert (In m (vels os)) as Hm by (apply in_flat_map; exists (OVel i m); split; [exact Ho|left; reflexivity]). refine (proj1 (Forall_forall _ _) (reads_all _ (fun v => vm_v v = vzero) _ _ _ HS) m Hm). intros x r Hx. eapply speed_parked. exact (MP x Hx).
    - assert (In m (legs os)) as Hm by (apply in_flat_map; exists (OLeg i m); split; [exact Ho|left; reflexivity]). exfalso. refine (proj1 (Forall_forall _ _) (reads_all _ (fun _ => False) _ _ _ HL) m Hm). intros x r Hx L. specialize (MP x Hx). destruct x, (np_sensor P); cbn in *; try contradiction; subst; constructor.
    - intros x Hx. rewrite Forall_forall in HV. exact (proj1 (HV _ HBo x Hx)).
    - intros x Hx. rewrite Forall_forall in HV. exact (proj1 (HV _ HBo x Hx)). }
  destruct (thm_parked _ w a _ os _ HR HA PO) as [A _]. rewrite PU in A. apply Forall_app in A. destruct A as [A1 A2]. split; [|exact A2].
  destruct SA as [SL SA]. apply Forall_forall. intros m Hm. apply In_nth_error in Hm. destruct Hm as (i & Hi). destruct (nth_error ss i) as [s|] eqn:Es.
  - destruct (SA i s m Es Hi) as (_ & _ & Sp & Sq). rewrite Forall_forall in A1. specialize (A1 s (nth_error_In _ _ Es)). assert (rot (sX s) = mid /\ col (sX s) 1 = vzero) as [X1 X2] by (unfold pose_of in A1; split; congruence). split; congruence.
  - apply nth_error_None in Es. assert (i < length (pb_sent (n_pub n)))%nat by (apply nth_error_Some; congruence). lia.
Qed.
Lemma thm_shipped_parked w a : Forall (fun P => accounts_for (np_est P) w a) [fetch_node; husky_node; neya_node].
Proof.
  assert (forall u : V3, cross u (cross u vzero) = vzero) as Z by (intros; ring3).
  repeat apply Forall_cons; try apply Forall_nil; (split; [reflexivity|]); cbn [np_est fetch_node husky_node neya_node fetch husky neya f_imu c_static dflt]; apply Z.
Qed.
