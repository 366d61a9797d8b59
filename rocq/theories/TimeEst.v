(** Proofs: C79 for the whole estimator. *)
From Coq Require Import Reals ZArith List Bool Arith Lia Lra.
From Verif Require Import Res Vec3 Mat LieGroup RobotState Inekf SpecFilter Imu Propagation SpecProp Queue VelCorr LegCorr Estimator SpecEst EstHist EstSafe ConvFilter SpecConv SpecSched Sched SchedMore SpecTime TimeShift.
Import ListNotations.
Local Open Scope R_scope.

Definition est_later d (e : est) : est :=
  mkEst (e_err e) (L d (e_state e)) (e_heap e) (option_map (ip_later d) (e_prop e)) (map (corr_later d) (e_corrs e)) (e_enabled e)
    (map (L d) (e_out e)) (e_logger e) (map (L d) (e_logq e)) (e_pending e) (e_lastpub e) (e_rate e) (e_lines e) (e_names e)
    (e_count e) (e_files e) (e_opened e) (e_rot_cov e) (e_vel_cov e) (e_pos_cov e) (e_slip e).
Lemma slip_later d s : SlipEstimatorStep (L d s) = rmap (L d) (SlipEstimatorStep s).
Proof. unfold SlipEstimatorStep. cbv zeta. change (dimX (L d s)) with (dimX s). ClearShift.step_same. ClearShift.step_same. ClearShift.step_same. ClearShift.step_same. ClearShift.step_same. ClearShift.step_same. ClearShift.step_same. reflexivity. Qed.
Lemma clear_corr_later d cs : map corr_clear (map (corr_later d) cs) = map (corr_later d) (map corr_clear cs).
Proof. rewrite !map_map. apply map_ext. intros [c|c]; reflexivity. Qed.
Lemma step_later d e o : is_reader o = false -> est_step (est_later d e) (op_later d o) = rmap (est_later d) (est_step e o).
Proof.
  intros Hr. destruct o; try discriminate; cbn [op_later est_step].
  - cbn [e_prop est_later]. destruct (e_prop e) as [ip|]; [|reflexivity]. cbn [option_map of_opt bind rmap]. f_equal. unfold est_later, e_set_prop, e_set, set_queue, ip_later. cbn. rewrite map_app. reflexivity.
  - cbn [rmap]. f_equal. unfold est_later, e_set_corrs, e_set. cbn [e_err e_state e_heap e_prop e_corrs e_enabled e_out e_logger e_logq e_pending e_lastpub e_rate e_lines e_names e_count e_files e_opened e_rot_cov e_vel_cov e_pos_cov e_slip]. rewrite <- (upd_later d [m] []). reflexivity.
  - cbn [rmap]. f_equal. unfold est_later, e_set_corrs, e_set. cbn [e_err e_state e_heap e_prop e_corrs e_enabled e_out e_logger e_logq e_pending e_lastpub e_rate e_lines e_names e_count e_files e_opened e_rot_cov e_vel_cov e_pos_cov e_slip]. rewrite <- (upd_later d [] [m]). reflexivity.
  - unfold InitBias. cbn [e_prop est_later]. destruct (e_prop e) as [ip|]; [|reflexivity]. cbn [option_map of_opt bind]. rewrite bias_later. destruct (InitImuBias ip); reflexivity.
  - unfold InitState. cbn [e_prop est_later]. destruct (e_prop e) as [ip|]; [|reflexivity]. cbn [option_map of_opt bind e_state est_later]. rewrite initial_later.
    destruct (set_initial_state ip (e_state e)) as [[[b ip'] s]|]; [|reflexivity]. cbn [rmap bind]. cbn [e_corrs est_later]. destruct b; cbn [negb].
    + rewrite spin_all_later. destruct (spin_all (e_corrs e) s l) as [[cs s1]|]; [|reflexivity]. cbn [rmap bind e_rot_cov e_vel_cov e_pos_cov est_later].
      rewrite rotc_later. destruct (set_rotation_covariance s1 _) as [s2|]; [|reflexivity]. cbn [rmap bind]. rewrite velc_later. destruct (set_velocity_covariance s2 _) as [s3|]; [|reflexivity]. cbn [rmap bind].
      rewrite posc_later. destruct (set_position_covariance s3 _) as [s4|]; [|reflexivity]. cbn [rmap bind]. f_equal. unfold est_later, e_set. cbn. rewrite map_app. reflexivity.
    + rewrite deliver_later. reflexivity.
  - unfold RunOnce. cbn [e_prop est_later]. destruct (e_prop e) as [ip|]; [|reflexivity]. cbn [option_map of_opt bind e_state est_later]. rewrite Propagate_later.
    destruct (Propagate ip (e_state e)) as [[[b ip'] s]|]; [|reflexivity]. cbn [rmap bind e_corrs e_heap est_later]. rewrite correct_all_later.
    destruct (correct_all (e_corrs e) (e_heap e) s l) as [[[[b2 cs] h] s2]|]; [|reflexivity]. cbn [rmap bind e_slip est_later]. destruct (b || b2); [|reflexivity].
    assert ((if e_slip e then SlipEstimatorStep (L d s2) else Ok (L d s2)) = rmap (L d) (if e_slip e then SlipEstimatorStep s2 else Ok s2)) as -> by (destruct (e_slip e); [apply slip_later|reflexivity]).
    destruct (if e_slip e then _ else _) as [s3|]; [|reflexivity]. cbn [rmap bind]. f_equal. unfold est_later, e_set. cbn. rewrite map_app. destruct (e_logger e); rewrite ?map_app; reflexivity.
  - unfold Clear. cbn [e_prop est_later]. destruct (e_prop e) as [ip|]; [|reflexivity]. cbn [option_map of_opt bind e_logger e_set est_later e_names e_count e_state e_corrs e_heap].
    rewrite clear_corr_later. destruct (e_logger e); [destruct (e_names e) as [n1 n2]|].
    + match goal with |- Ok (e_reopen _ ?n ?fl) = _ => generalize n fl; intros k fl' end. reflexivity.
    + reflexivity.
Qed.
Lemma er_later d a b : er a = er b -> er (est_later d a) = er (est_later d b).
Proof. intros H. change (er (est_later d a)) with (er (est_later d (er a))). rewrite H. reflexivity. Qed.
Lemma allowed_later d e o : allowed e o -> allowed (est_later d e) (op_later d o).
Proof. assert (BiasInitialized (est_later d e) = BiasInitialized e) as EB by (unfold BiasInitialized; cbn [e_prop est_later]; destruct (e_prop e); reflexivity). destruct o; cbn [allowed op_later]; rewrite ?EB; auto. Qed.
Lemma reader_later d o : is_reader (op_later d o) = is_reader o. Proof. destruct o; reflexivity. Qed.
Lemma pub1_later d a b : pub1 (est_later d a) (est_later d b) = map (L d) (pub1 a b).
Proof. unfold pub1. cbn [e_out est_later]. rewrite map_length, skipn_map. reflexivity. Qed.
Lemma exec_later d : forall os a b r pub, er (est_later d a) = er b -> est_ok (imus (map (op_later d) os)) b -> exec a os r pub ->
  exists r', exec b (map (op_later d) os) r' (map (L d) pub) /\ er (est_later d r) = er r'.
Proof.
  induction os as [|o os IH]; intros a b r pub HE HK X.
  - destruct X as [-> ->]. exists b. split; [split; reflexivity|exact HE].
  - cbn [exec] in X. destruct X as (a1 & pub' & A & S & -> & X). cbn [map] in *. rewrite imus_cons in HK.
    assert (allowed b (op_later d o)) as Ab by (apply (er_allowed _ _ _ HE), allowed_later, A).
    assert (exists b1, est_step b (op_later d o) = Ok b1 /\ er (est_later d a1) = er b1 /\ pub1 b b1 = map (L d) (pub1 a a1)) as (b1 & Sb & Eb & Pb).
    { destruct (is_reader o) eqn:Hr.
      - destruct (er_reader _ _ _ Hr S) as [E1 E2]. destruct (step_safe _ _ _ HK Ab) as [(b1 & Sb & _)|(_ & l & X1 & _)]; [|destruct o; discriminate].
        assert (is_reader (op_later d o) = true) as Hr' by (rewrite reader_later; exact Hr). destruct (er_reader _ _ _ Hr' Sb) as [F1 F2]. exists b1. split; [exact Sb|]. split; [rewrite F1, <- HE; apply er_later, E1|rewrite F2, E2; reflexivity].
      - pose proof (step_later d a o Hr) as SL. rewrite S in SL. cbn [rmap] in SL. destruct (sim_step _ b _ _ HE (eq_trans (reader_later d o) Hr) SL) as (b1 & Sb & Eb & Pb). exists b1. split; [exact Sb|]. split; [symmetry; exact Eb|]. rewrite Pb. apply pub1_later. }
    assert (est_ok (imus (map (op_later d) os)) b1) as HK1.
    { destruct (step_safe _ _ _ HK Ab) as [(x & Sx & Hx)|(X1 & _)]; [|congruence]. rewrite Sb in Sx. assert (x = b1) by congruence. subst x. exact Hx. }
    destruct (IH a1 b1 r pub' Eb HK1 X) as (r' & X' & Er). exists r'. split; [|exact Er]. cbn [exec]. exists b1, (map (L d) pub'). split; [exact Ab|]. split; [exact Sb|]. split; [|exact X']. rewrite Pb, map_app. reflexivity.
Qed.
Lemma imus_later d os : imus (map (op_later d) os) = map (imu_later d) (imus os).
Proof. induction os as [|o os IH]; [reflexivity|]. destruct o; cbn; rewrite ?IH; reflexivity. Qed.
Lemma stream_later d l : imu_stream l -> imu_stream (map (imu_later d) l).
Proof.
  intros [H1 H2]. split.
  - apply Forall_map. exact H1.
  - rewrite map_map. cbn [imu_later i_t]. assert (forall l x, nondec x (map i_t l) -> nondec (x + d) (map (fun m => i_t m + d) l)) as K.
    { clear. induction l as [|m l IH]; intros x; cbn; [auto|]. intros [H1 H2]. split; [lra|]. apply IH, H2. }
    destruct l as [|m l]; [exact I|]. cbn in *. apply K, H2.
Qed.
Lemma build_later d f : est_later d (build f) = build f.
Proof.
  rewrite build_eq. unfold est_later. cbn [e_set_corrs e_set add_imu_propagation e_set_prop InekfEstimator e_err e_state e_heap e_prop e_corrs e_enabled e_out e_logger e_logq e_pending e_lastpub e_rate e_lines e_names e_count e_files e_opened e_rot_cov e_vel_cov e_pos_cov e_slip].
  assert (map (corr_later d) (map (mk_corr (f_err f)) (f_corrs f)) = map (mk_corr (f_err f)) (f_corrs f)) as ->. { rewrite map_map. apply map_ext. intros [g|g]; reflexivity. }
  reflexivity.
Qed.
Lemma thm_clock d f os e : reachable f os e -> exists e', reachable f (map (op_later d) os) e' /\ e_state e' = state_later d (e_state e) /\ e_enabled e' = e_enabled e /\
  published any_op (build f) (map (op_later d) os) = map (state_later d) (published any_op (build f) os).
Proof.
  intros (HC & HI & HP & HR). assert (imu_stream (imus (map (op_later d) os))) as HI' by (rewrite imus_later; apply stream_later, HI).
  assert (exec (build f) os e (published any_op (build f) os)) as X by (apply exec_iff; auto).
  assert (er (est_later d (build f)) = er (build f)) as EB by (rewrite build_later; reflexivity).
  destruct (exec_later d _ _ _ _ _ EB (build_ok f _ HC HI') X) as (e' & X' & E). apply exec_iff in X'. destruct X' as (X1 & X2 & X3). exists e'. split; [split; [exact HC|]; split; [exact HI'|]; split; assumption|].
  apply er_same in E. destruct E. split; [symmetry; exact sf_state|]. split; [symmetry; exact sf_enabled|exact X3].
Qed.
