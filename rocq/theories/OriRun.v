(** Proofs: C71, an estimator that does not use the IMU's orientation is not influenced by it. *)
From Coq Require Import Reals ZArith List Bool Lia Lra.
From Verif Require Import Res Vec3 Mat LieGroup Spec RobotState Inekf SpecFilter Imu Propagation Queue VelCorr LegCorr Estimator SpecEst EstHist EstSafe ConvFilter SpecConv SpecYaw.
Import ListNotations.
Local Open Scope R_scope.

Definition no_q : quat := mkQ 1 0 0 0.
Definition bare (m : imu) : imu := mkImu (i_t m) no_q (i_w m) (i_a m).
Definition bare_op (o : op) : op := match o with OImu m => OImu (bare m) | _ => o end.
Definition bare_ip (ip : imu_prop) : imu_prop :=
  mkIP (map bare (ip_queue ip)) (ip_err ip) (ip_static ip) (ip_init_size ip) (ip_use_ori ip) (ip_Rib ip) (ip_gyro_cov ip) (ip_accel_cov ip)
    (ip_gyro_bias_cov ip) (ip_accel_bias_cov ip) (ip_bg0 ip) (ip_ba0 ip) (ip_enable ip) (ip_t ip)
    (ip_bias_init ip) (ip_vec ip) (option_map bare (ip_prev ip)).
Definition bare_est (e : est) : est :=
  mkEst (e_err e) (e_state e) (e_heap e) (option_map bare_ip (e_prop e)) (e_corrs e) (e_enabled e)
    (e_out e) (e_logger e) (e_logq e) (e_pending e) (e_lastpub e) (e_rate e) (e_lines e) (e_names e)
    (e_count e) (e_files e) (e_opened e) (e_rot_cov e) (e_vel_cov e) (e_pos_cov e) (e_slip e).
Definition no_ori (e : est) : Prop := forall ip, e_prop e = Some ip -> ip_use_ori ip = false.

Lemma bare_same a b : same_but_orientation a b -> bare_op a = bare_op b.
Proof. destruct a as [m|i m|i m| |l|l| | | |], b as [m'|i' m'|i' m'| |l'|l'| | | |]; cbn; try discriminate; try congruence. intros (E1 & E2 & E3). unfold bare. rewrite E1, E2, E3. reflexivity. Qed.
Lemma bare_propagate ip m s : propagate_with (bare_ip ip) (bare m) s = propagate_with ip m s.
Proof. reflexivity. Qed.
Lemma bare_Propagate ip s : Propagate (bare_ip ip) s = rmap (fun '(b, ip', s') => (b, bare_ip ip', s')) (Propagate ip s).
Proof.
  unfold Propagate. cbn [ip_queue bare_ip]. destruct (ip_queue ip) as [|x l]; [reflexivity|]. cbn [map ip_prev bare_ip].
  destruct (ip_prev ip) as [m|]; [|reflexivity]. cbn [of_opt option_map bind].
  change (set_prev (set_queue (bare_ip ip) (map bare l)) (bare x)) with (bare_ip (set_prev (set_queue ip l) x)).
  rewrite bare_propagate. destruct (propagate_with _ m s); reflexivity.
Qed.
Lemma bare_initial ip s : ip_use_ori ip = false -> set_initial_state (bare_ip ip) s = rmap (fun '(b, ip', s') => (b, bare_ip ip', s')) (set_initial_state ip s).
Proof.
  intros Hu. unfold set_initial_state. cbn [ip_queue bare_ip]. destruct (ip_queue ip) as [|x l]; [reflexivity|]. cbn [map ip_use_ori ip_bg0 ip_ba0 ip_enable ip_gyro_bias_cov ip_accel_bias_cov bare_ip bare i_w i_t i_q]. rewrite Hu.
  repeat (match goal with |- bind ?x _ = _ => destruct x; [cbn [bind]|reflexivity] end). reflexivity.
Qed.
Lemma bare_bias ip : ip_use_ori ip = false -> InitImuBias (bare_ip ip) = rmap bare_ip (InitImuBias ip).
Proof.
  intros Hu. unfold InitImuBias. cbn [ip_static bare_ip ip_vec ip_init_size ip_queue]. destruct (negb (ip_static ip)); [reflexivity|]. destruct (size_lt _ _).
  - destruct (ip_queue ip) as [|m l]; [reflexivity|]. cbn [map rmap]. unfold calib_sample. cbn [ip_use_ori ip_Rib ip_t bare_ip bare i_w i_a i_q]. rewrite Hu. reflexivity.
  - destruct (check _ _); reflexivity.
Qed.
Lemma bare_step e o : no_ori e -> est_step (bare_est e) (bare_op o) = rmap bare_est (est_step e o).
Proof.
  intros HN. destruct o; cbn [bare_op est_step].
  - cbn [e_prop bare_est]. destruct (e_prop e) as [ip|]; [|reflexivity]. cbn [option_map of_opt bind rmap]. f_equal. unfold bare_est, e_set_prop, e_set, set_queue, bare_ip. cbn. rewrite map_app. reflexivity.
  - reflexivity.
  - reflexivity.
  - unfold InitBias. cbn [e_prop bare_est]. destruct (e_prop e) as [ip|] eqn:Ep; [|reflexivity]. cbn [option_map of_opt bind]. rewrite bare_bias by (apply HN; auto). destruct (InitImuBias ip); reflexivity.
  - unfold InitState. cbn [e_prop bare_est]. destruct (e_prop e) as [ip|] eqn:Ep; [|reflexivity]. cbn [option_map of_opt bind e_state bare_est]. rewrite bare_initial by (apply HN; auto).
    destruct (set_initial_state ip (e_state e)) as [[[b ip'] s]|]; [|reflexivity]. cbn [rmap bind]. destruct b; cbn [negb]; [|reflexivity]. cbn [e_corrs bare_est].
    destruct (spin_all (e_corrs e) s l) as [[cs s1]|]; [|reflexivity]. cbn [bind e_rot_cov e_vel_cov e_pos_cov bare_est].
    repeat (match goal with |- bind ?x _ = _ => destruct x; [cbn [bind]|reflexivity] end). reflexivity.
  - unfold RunOnce. cbn [e_prop bare_est]. destruct (e_prop e) as [ip|] eqn:Ep; [|reflexivity]. cbn [option_map of_opt bind e_state bare_est]. rewrite bare_Propagate.
    destruct (Propagate ip (e_state e)) as [[[b ip'] s]|]; [|reflexivity]. cbn [rmap bind e_corrs e_heap bare_est].
    destruct (correct_all (e_corrs e) (e_heap e) s l) as [[[[b2 cs] h] s2]|]; [|reflexivity]. cbn [bind e_slip bare_est]. destruct (b || b2); [|reflexivity].
    destruct (if e_slip e then _ else _); reflexivity.
  - unfold Clear. cbn [e_prop bare_est]. destruct (e_prop e) as [ip|] eqn:Ep; [|reflexivity]. cbn [option_map of_opt bind e_state bare_est e_logger e_set e_names e_count]. destruct (e_logger e); [destruct (e_names e) eqn:En|]; cbn [rmap]; f_equal; unfold bare_est, e_reopen, e_set; cbn; rewrite ?En; reflexivity.
  - reflexivity.
  - unfold LogPop. cbn [e_pending e_logq bare_est rmap]. destruct (e_pending e) eqn:Ep; cbn [rmap]; [reflexivity|]. destruct (e_logq e) eqn:El; reflexivity.
  - unfold LogWrite. cbn [e_pending bare_est]. destruct (e_pending e) as [x|] eqn:Ep; cbn [rmap]; [|reflexivity]. destruct (get_time x); [|reflexivity]. cbn [bind e_logger e_rate e_lastpub bare_est].
    destruct (e_logger e && log_due _ _); [|reflexivity]. repeat (match goal with |- bind ?x _ = _ => destruct x; [cbn [bind]|reflexivity] end). reflexivity.
Qed.
Lemma no_ori_step e o e' : no_ori e -> est_step e o = Ok e' -> no_ori e'.
Proof.
  intros H E ip Hip. destruct (step_fixed _ _ _ E) as (_ & _ & F2). rewrite Hip in F2. destruct (e_prop e) as [ip0|] eqn:Ep; [|discriminate]. cbn [option_map] in F2.
  assert (ip_fixed ip = ip_fixed ip0) as F by congruence. rewrite <- (H ip0 Ep). unfold ip_fixed in F. congruence.
Qed.
Lemma bare_run : forall os e, no_ori e -> est_run (bare_est e) (map bare_op os) = rmap bare_est (est_run e os) /\ published any_op (bare_est e) (map bare_op os) = published any_op e os.
Proof.
  induction os as [|o os IH]; intros e HN; [split; reflexivity|]. cbn [est_run foldM map published]. rewrite (bare_step e o HN). destruct (est_step e o) as [e1|] eqn:E1; cbn [rmap bind]; [|auto].
  destruct (IH e1 (no_ori_step _ _ _ HN E1)) as [I1 I2]. split; [exact I1|]. cbn [any_op]. rewrite I2. reflexivity.
Qed.
Lemma no_ori_build f : ignores_orientation f -> no_ori (build f).
Proof. intros H ip. rewrite build_eq. intros [= <-]. exact H. Qed.
Lemma thm_orientation f os os' : ignores_orientation f -> Forall2 same_but_orientation os os' ->
  published any_op (build f) os' = published any_op (build f) os /\
  match est_run (build f) os with
  | Ok a => exists b, est_run (build f) os' = Ok b /\ same_everything a b
  | Fail x => est_run (build f) os' = Fail x
  end.
Proof.
  intros HI HF. assert (map bare_op os' = map bare_op os) as EO. { induction HF as [|a b l l' H _ IH]; [reflexivity|]. cbn [map]. rewrite IH, (bare_same _ _ H). reflexivity. }
  pose proof (no_ori_build f HI) as HN. destruct (bare_run os (build f) HN) as [A1 A2]. destruct (bare_run os' (build f) HN) as [B1 B2]. rewrite EO in B1, B2. split; [congruence|].
  rewrite A1 in B1. destruct (est_run (build f) os) as [a|x], (est_run (build f) os') as [b|y]; cbn [rmap] in B1; try discriminate; [|congruence].
  exists b. split; [reflexivity|]. assert (bare_est a = bare_est b) as E by congruence. constructor; [apply (f_equal e_state) in E|apply (f_equal e_enabled) in E|apply (f_equal e_out) in E|apply (f_equal e_logq) in E|apply (f_equal e_lines) in E|apply (f_equal e_opened) in E]; cbn in E; congruence.
Qed.
