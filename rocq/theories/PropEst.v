(** Properties C26-C29, C31, C32, C49, C50, C56, C58: the whole estimator. *)
From Coq Require Import Reals ZArith List Bool Lia Lra String.
From Verif Require Import Res Vec3 Mat MatInv Psd Spec LieGroup RobotState Inekf SpecFilter Imu Quat Propagation SpecProp VelCorr LegCorr SpecCorr
  Estimator SpecEst SpecFiles LieSEK PsdBlk ImuNeg VelThms EstInv EstSafe EstPub EstHist EstTime EstEx EstQueue EstLog EstFiles EstNames EstMisc QuatThms Driver.
Import ListNotations.
Local Open Scope R_scope.

(** C26: from construction, every history that follows the protocol (sensor callbacks, clear,
    output reads and logging steps at any time) runs without any failure, and the current
    estimate, every published state and every state waiting to be logged are well-formed, with the
    rotation in SO(3) and a PSD covariance.  The only possible failure is the endless loop of
    an InitState during which some correction never gets a measurement. *)
Theorem C26_no_undefined_behaviour : forall f os, config_ok f -> imu_stream (imus os) -> protocol (build f) os ->
  match est_run (build f) os with
  | Ok e => (exists n, wfp (2 + n) (e_state e) /\ psd (sP (e_state e))) /\ Forall sound (e_out e) /\ Forall sound (e_logq e) /\
            (forall s, e_pending e = Some s -> sound s) /\ (e_enabled e = true -> sound (e_state e))
  | Fail er => er = Spin /\ exists pre l post e1, os = (pre ++ OInitState l :: post)%list /\ est_run (build f) pre = Ok e1 /\ ~ fed_all (e_corrs e1) l
  end.
Proof. exact thm_safe. Qed.
Print Assumptions C26_no_undefined_behaviour.
Theorem C26_no_failure_when_fed : forall f os, config_ok f -> imu_stream (imus os) -> protocol (build f) os ->
  (forall pre l post e1, os = (pre ++ OInitState l :: post)%list -> est_run (build f) pre = Ok e1 -> fed_all (e_corrs e1) l) ->
  exists e, est_run (build f) os = Ok e.
Proof. exact thm_safe_fed. Qed.
Print Assumptions C26_no_failure_when_fed.
(** one velocity correction; calibration off, initialisation, a propagation, a correction *)
Example C26_example : config_ok exF /\ imu_stream (imus exOps) /\ protocol (build exF) exOps /\ exists e, est_run (build exF) exOps = Ok e.
Proof.
  split; [exact exF_ok|]. split; [exact exStream|]. split; [exact exProtocol|].
  destruct ex_states as (e4 & e5 & e6 & e7 & e8 & R3 & S4 & S5 & S6 & S7 & S8 & _). exists e8.
  cbn [exOps exPre app]. unfold est_run. cbn [foldM]. rewrite exS1. cbn [bind]. rewrite exS2. cbn [bind]. rewrite exS3. cbn [bind]. rewrite step_init, S4. cbn [bind].
  rewrite S5. cbn [bind]. rewrite step_run, S6. cbn [bind]. rewrite S7. cbn [bind]. rewrite step_run, S8. reflexivity.
Qed.

(** C27: in every reachable enabled state RunOnce succeeds; it takes at most one IMU sample,
    gives each correction one turn (stale readings dropped, at most one applied), and publishes
    exactly one state, the new current one, iff there was an IMU sample or a reading was
    applied; otherwise nothing is published and the state is unchanged. *)
Theorem C27_run_once_publishes : forall f os e l, reachable f os e -> e_enabled e = true ->
  exists e' fs pub tp, RunOnce e l = Ok e' /\
    e_out e' = (e_out e ++ pub)%list /\ e_logq e' = (e_logq e ++ (if e_logger e then pub else []))%list /\
    stprop (e_state e') = Some tp /\ turns_ok (Some tp) (e_corrs e) l fs (e_corrs e') /\ imu_queue e' = tl (imu_queue e) /\
    ((imu_queue e <> [] \/ used_some fs) -> pub = [e_state e']) /\
    (imu_queue e = [] /\ ~ used_some fs -> pub = [] /\ e_state e' = e_state e).
Proof. exact thm_run_once. Qed.
Print Assumptions C27_run_once_publishes.
Example C27_example : exists e, reachable exF exPre exE3 /\ reachable exF (exPre ++ [OInitState []])%list e /\ e_enabled e = true.
Proof.
  destruct ex_states as (e4 & e5 & e6 & e7 & e8 & R3 & S4 & S5 & S6 & S7 & S8 & P3 & _). exists e4.
  assert (forall os' e, protocol (build exF) os' -> est_run (build exF) os' = Ok e -> imu_stream (imus os') -> reachable exF os' e) as HR by (intros; split; [exact exF_ok|auto]).
  assert (imu_stream (imus exPre)) as HS by (split; cbn; [constructor; [unfold qnorm2; cbn; ring|constructor]|auto]).
  assert (protocol (build exF) (exPre ++ [OInitState []])%list) as HP.
  { cbn [exPre app protocol]. split; [exact exA1|]. intros x X. rewrite exS1 in X. injection X as <-. split; [exact I|]. intros x X. rewrite exS2 in X. injection X as <-.
    split; [exact I|]. intros x X. rewrite exS3 in X. injection X as <-. split; [exact exA3|auto]. }
  split; [|split; [|exact P3]].
  - apply HR; [|exact exR3|exact HS]. cbn [exPre protocol]. split; [exact exA1|]. intros x X. split; [exact I|]. intros y Y. split; [exact I|]. auto.
  - apply HR; [exact HP| |exact HS]. unfold est_run in *. rewrite foldM_app. pose proof exR3 as R. unfold est_run in R. rewrite R. cbn [bind foldM]. rewrite step_init, S4. reflexivity.
Qed.

(** C28: InitState in a reachable disabled state.  Without an IMU sample nothing changes.
    With one, the filter is enabled and one state is published: orientation from the sample
    (if configured), zero position, the calibrated biases, the configured covariance; every
    correction took at least one reading (oldest first, none left behind that was used), and
    velocity and time come from the newest reading of the last correction. *)
Theorem C28_init_state : forall f os e l ip, reachable f os e -> e_enabled e = false -> e_prop e = Some ip -> fed_all (e_corrs e) l ->
  exists e', InitState e l = Ok e' /\
  match ip_queue ip with
  | [] => e_enabled e' = false /\ e_state e' = e_state e /\ e_out e' = e_out e
  | m :: q =>
    let s := e_state e' in
    e_enabled e' = true /\ e_out e' = (e_out e ++ [s])%list /\ imu_queue e' = q /\
    (exists us, took_all (e_corrs e) l us (e_corrs e') /\
       match newest (List.concat us) with
       | Some x => col (sX s) 0 = rot (sX s) *v r_vel (i_w m) x /\ st s = Some (r_time x)
       | None => col (sX s) 0 = vzero /\ st s = Some (i_t m)
       end) /\
    rot (sX s) = (if dflt (c_use_ori (f_imu f)) false then toRotationMatrix (i_q m) else mid) /\
    col (sX s) 1 = vzero /\ gbias s = ip_bg0 ip /\ abias s = ip_ba0 ip /\ stprop s = Some (i_t m) /\
    sP s = bdiag 5 (start_cov f)
  end.
Proof. exact thm_init_state. Qed.
Print Assumptions C28_init_state.
Example C28_example : e_enabled exE3 = false /\ e_prop exE3 = Some exIp2 /\ ip_queue exIp2 = [exM 1] /\ fed_all (e_corrs exE3) [].
Proof. split; [exact (proj1 exA3)|]. split; [exact exP3|]. split; [reflexivity|]. cbn. split; [discriminate|exact I]. Qed.

(** C29.  Proved part: propagated times are non-decreasing over any legal history with
    non-decreasing IMU stamps; a state published by RunOnce is stamped at most the time
    threshold before its propagated time; without corrections the two times agree.  Missing:
    monotonicity of the published stamps, which is false. *)
Theorem C29_published_times_partial : forall f os thr, config_ok f -> imu_stream (imus os) -> protocol (build f) os -> 0 <= thr -> Forall (fun g => cfg_thr g <= thr) (f_corrs f) ->
  sorted (map prop_time (published is_filter_op (build f) os)) /\
  (forall s, In s (published is_run_op (build f) os) -> exists t tp, st s = Some t /\ stprop s = Some tp /\ tp - thr <= t) /\
  (f_corrs f = [] -> forall s, In s (published is_filter_op (build f) os) -> st s = stprop s).
Proof. exact thm_time. Qed.
Print Assumptions C29_published_times_partial.
Example C29_example : Forall (fun g => cfg_thr g <= 3 / 10) (f_corrs exF).
Proof. constructor; [unfold cfg_thr; cbn; lra|constructor]. Qed.
(** The full claim is false of the code: with sorted IMU and velocity stamps, published times 1 and then 0.9. *)
Theorem C29_published_times_refuted : exists f os, config_ok f /\ imu_stream (imus os) /\ sorted (map vm_t (vels os)) /\ protocol (build f) os /\
  (exists e, est_run (build f) os = Ok e) /\
  map st (published is_run_op (build f) os) = [Some 1; Some (9 / 10)].
Proof. exact thm_time_refuted. Qed.
Print Assumptions C29_published_times_refuted.

(** C31: the log.  The states the logging thread has dealt with are a subsequence of those
    published by RunOnce (all of them in order, except those dropped by clear); of these exactly
    those at least 1/rate after the last logged one are written, one correct line each;
    consecutive lines are at least 1/rate apart. *)
Theorem C31_log_keeps_rate : forall f os e, reachable f os e -> k_logger (f_est f) = true -> let rate := dflt (k_rate (f_est f)) 10 in 0 < rate ->
  exists done, subseq done (published is_run_op (build f) os) /\
    Forall2 line_for (decimate (1 / rate) 0 done) (e_lines e) /\
    spaced (1 / rate) (0 :: map ll_t (e_lines e)) /\
    (forallb no_clear os = true -> published is_run_op (build f) os = (done ++ log_wait e)%list).
Proof. exact thm_log. Qed.
Print Assumptions C31_log_keeps_rate.
Example C31_example : k_logger (f_est exF) = true /\ 0 < dflt (k_rate (f_est exF)) 10.
Proof. cbn. split; [reflexivity|lra]. Qed.

(** C32.  Proved: after n clears n + 1 triples of files have been opened; pose files are
    pairwise different, velocity and body velocity files too; all of them are pairwise
    different when neither base name is a prefix of the other.  Missing: base names in
    general (see below). *)
Theorem C32_log_files_partial : forall f os e, est_run (build f) os = Ok e -> k_logger (f_est f) = true ->
  let pose := base (k_pose_file (f_est f)) "inekf_pose" in let vel := base (k_vel_file (f_est f)) "inekf_vel" in
  List.length (e_opened e) = S (n_clear os) /\
  NoDup (map (fun '(p, _, _) => p) (e_opened e)) /\ NoDup (flat_map (fun '(_, v, b) => [v; b]) (e_opened e)) /\
  (prefix pose vel = false -> prefix vel pose = false -> NoDup (all_names (e_opened e))).
Proof. exact thm_files. Qed.
Print Assumptions C32_log_files_partial.
(** the default names satisfy the condition *)
Example C32_default_names : let pose := base None "inekf_pose" in let vel := base None "inekf_vel" in prefix pose vel = false /\ prefix vel pose = false.
Proof. split; reflexivity. Qed.
(** exactly when the files of a history are pairwise different *)
Theorem C32_exact_condition : forall f os e, est_run (build f) os = Ok e -> k_logger (f_est f) = true ->
  NoDup (all_names (e_opened e)) <-> ~ clash (n_clear os) (base (k_pose_file (f_est f)) "inekf_pose") (base (k_vel_file (f_est f)) "inekf_vel").
Proof. exact thm_exact_names. Qed.
Print Assumptions C32_exact_condition.
(** all shipped programs but one are on the safe side, for any number of clears ... *)
Theorem C32_shipped_programs_partial : forall f os e, In f shipped -> f <> mini_cheetah -> est_run (build f) os = Ok e -> NoDup (all_names (e_opened e)).
Proof. exact thm_shipped_files. Qed.
Print Assumptions C32_shipped_programs_partial.
Example C32_shipped_example : In husky shipped /\ husky <> mini_cheetah /\ exists e, est_run (build husky) [OClear; OClear] = Ok e.
Proof. exact thm_shipped_names_example. Qed.
(** ... but the mini cheetah's configuration gives the pose file and the velocity file the
    same name. *)
Theorem C32_mini_cheetah_refuted : exists x y, e_opened (build mini_cheetah) = [(x, x, y)].
Proof. exact thm_cheetah_refuted. Qed.
Print Assumptions C32_mini_cheetah_refuted.
(** the extension is removed *)
Theorem C32_extension_removed : forall a ext, has_dot ext = false -> strip_ext (a ++ "." ++ ext) = a.
Proof. exact thm_strip. Qed.
Print Assumptions C32_extension_removed.
Theorem C32_no_extension : forall a, has_dot a = false -> strip_ext a = a.
Proof. exact thm_strip_plain. Qed.
Print Assumptions C32_no_extension.
(** In general the claim is false: equal names collide, and "./log/pose" has its last dot
    in the directory part, so everything after it is lost. *)
Theorem C32_log_files_refuted :
  e_opened (build (file_cfg "log.txt" "log.txt")) = [("log.txt", "log.txt", "log_body_frame.txt")]%string /\
  e_opened (build (file_cfg "./log/pose" "./log/vel")) = [(".txt", ".txt", "_body_frame.txt")]%string.
Proof. exact thm_collision_refuted. Qed.
Print Assumptions C32_log_files_refuted.

(** C49: for any history, legal or not, each IMU sample delivered is taken by exactly one step
    (at most one per step, in order) or is still queued; the same for each correction, whatever
    arrives before, between and during the calls. *)
Theorem C49_conservation : forall f os e, est_run (build f) os = Ok e ->
  (exists tks, traced imu_move (build f) os tks /\ imus os = (List.concat tks ++ imu_queue e)%list) /\
  (forall i g, nth_error (f_corrs f) i = Some g -> exists tks, traced (corr_move g i) (build f) os tks /\
     flat_map (delivered g i) os = (flat_map consumed tks ++ queue_of e i)%list).
Proof. exact thm_conserved. Qed.
Print Assumptions C49_conservation.
Example C49_example : imus exOps = [exM 1; exM 2] /\ nth_error (f_corrs exF) 0 = Some (GVel no_vcfg) /\
  flat_map (delivered (GVel no_vcfg) 0) exOps = [Datatypes.inl (exV (8 / 10)); Datatypes.inl (exV (9 / 10))].
Proof. split; [reflexivity|split; reflexivity]. Qed.

(** C50.  Proved part: the detection changes only the flag, which is set iff 1000 |d|^2 > 4.642
    for the last column d of the state.  Missing: the test on the filter's own covariance. *)
Theorem C50_slip_flag_partial : forall K s, wfp K s ->
  let d := col (sX s) (K - 1) in
  SlipEstimatorStep s = Ok (set_slip_flag s (if Rlt_dec (4642 / 1000) (1000 * vdot d d) then 1 else 0)%Z).
Proof. exact thm_slip. Qed.
Print Assumptions C50_slip_flag_partial.
Example C50_example : wfp 3 (ex_state 3 (meye 18) 1).
Proof. apply ex_wfp; auto. Qed.
(** For this state matrix the flag is set whatever the covariance. *)
Theorem C50_covariance_ignored_refuted : exists X, forall P, nr P = 18%nat -> nc P = 18%nat -> psd P ->
  exists s, sX s = X /\ sP s = P /\ wfp 3 s /\ SlipEstimatorStep s = Ok (set_slip_flag s 1%Z).
Proof. exact thm_slip_refuted. Qed.
Print Assumptions C50_covariance_ignored_refuted.
(** And no history of the estimator switches the detection on. *)
Theorem C50_detection_is_off : forall f os e, est_run (build f) os = Ok e -> e_slip e = false.
Proof. exact thm_slip_off. Qed.
Print Assumptions C50_detection_is_off.

(** C56, the part that holds: with the sensor frame equal to the body frame and unit scale the
    newest reading has zero innovation in the initialised state, and nothing but the
    velocity and the time stamp changes. *)
Theorem C56_initial_velocity_partial : forall c K s arr m, wfp K s -> vc_R c = mid -> vc_scale c = 1 -> newest (vc_queue c ++ arr) = Some m ->
  exists c' s', vel_initialize c s arr = Ok (true, c', s') /\ vc_queue c' = [] /\ st s' = Some (vm_t m) /\
    vel_innovation s' (vc_R c *v (vc_scale c *s vm_v m)) = mO 3 1 /\
    rot (sX s') = rot (sX s) /\ (forall k, (1 <= k < K)%nat -> col (sX s') k = col (sX s) k) /\ sTheta s' = sTheta s /\ sP s' = sP s.
Proof. exact thm_mount_identity. Qed.
Print Assumptions C56_initial_velocity_partial.
(** the default configuration has identity mounting and unit scale *)
Example C56_example : let c := VelocityCorrection [] RightInvariant (mkVCfg None None None None) in
  wfp 3 (ex_state 3 (meye 18) 1) /\ vc_R c = mid /\ vc_scale c = 1 /\ newest (vc_queue c ++ [mkVM 1 (mkV 1 0 0); mkVM 2 (mkV 0 1 2)]) = Some (mkVM 2 (mkV 0 1 2)).
Proof. split; [apply ex_wfp; auto; lia|]. split; [apply M3_eq; cbn; ring|]. auto. Qed.
(** C56: false of the code: the reading that initialised the velocity has a non-zero
    innovation in the initialised state, because initialize ignores scale and mounting. *)
Theorem C56_initial_velocity_refuted : exists g s m c' s', let c := VelocityCorrection [] RightInvariant g in
  wfp 2 s /\ vel_initialize c s [m] = Ok (true, c', s') /\
  vel_innovation s' (vc_R c *v (vc_scale c *s vm_v m)) <> mO 3 1.
Proof. exact thm_mount_refuted. Qed.
Print Assumptions C56_initial_velocity_refuted.

(** C58: the quaternion written to the log (and published) is a unit quaternion describing
    exactly the rotation of the state, on all four branches of the conversion. *)
Theorem C58_orientation_quaternion : forall M, SO3 M -> qnorm2 (quat_of_mat M) = 1 /\ toRotationMatrix (quat_of_mat M) = M.
Proof. exact thm_quat_of_mat. Qed.
Print Assumptions C58_orientation_quaternion.
(** a half turn takes a branch other than the first *)
Example C58_example : let M := mkM (- 1) 0 0 0 (- 1) 0 0 0 1 in SO3 M /\ toRotationMatrix (quat_of_mat M) = M.
Proof.
  assert (SO3 (mkM (- 1) 0 0 0 (- 1) 0 0 0 1)) as H.
  { split; [|unfold det3; cbn; ring]. apply M3_eq; cbn; ring. }
  split; [exact H|]. apply thm_quat_of_mat, H.
Qed.
