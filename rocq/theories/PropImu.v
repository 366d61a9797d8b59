(** Properties C16-C20, C36, C42, C43, C53, C54: IMU samples, calibration and propagation. *)
From Coq Require Import Reals ZArith List Bool Lia Lra.
From Verif Require Import Res Vec3 Mat LieGroup MatInv Psd Spec LieSO3 LieSEK RobotState Inekf SpecFilter Imu Propagation SpecProp
  PropagationProofs PropagationThms PropagationExact PropagationLog PropagationODE PropagationUniq ImuThms ImuRest ImuNeg.
Import ListNotations.
Local Open Scope R_scope.

(** C16: any run of propagation calls, with any batches of samples arriving before
    each call and any time stamps, succeeds and stays in SE_K(3); contacts, biases,
    noise matrix, id map and the bias flag are untouched. *)
Theorem C16_propagation_stays_on_group : forall K bs ip s m0 t0,
  wfp K s -> stprop s = Some t0 -> ip_prev ip = Some m0 ->
  exists n ip' s', run ip s bs = Ok (n, ip', s') /\ SEK K (sX s') /\ wfp K s' /\
    (forall k, (2 <= k < K)%nat -> col (sX s') k = col (sX s) k) /\
    sTheta s' = sTheta s /\ sQc s' = sQc s /\ scmap s' = scmap s /\ sen s' = sen s.
Proof. exact thm_propagation_group. Qed.
Print Assumptions C16_propagation_stays_on_group.

Example C16_hyps : exists s ip, wfp 4 s /\ stprop s = Some 1 /\ ip_prev ip = Some imu_default /\ ip_err ip = RightInvariant.
Proof.
  exists (ex_state 4 (meye 21) 1), (set_prev (ImuPropagation [] RightInvariant no_cfg) imu_default).
  split; [apply ex_wfp; auto; lia|]. repeat split.
Qed.

(** C17: with time stamps that never go backwards the covariance stays symmetric
    positive semi-definite, for every constructor configuration and convention. *)
Theorem C17_propagation_keeps_covariance : forall K ip s bs n ip' s' m0 t0,
  wfp K s -> stprop s = Some t0 -> ip_prev ip = Some m0 -> noise_ok ip -> contact_noise K (sQc s) ->
  nondec t0 (map i_t (m0 :: ip_queue ip ++ concat bs)) -> psd (sP s) ->
  run ip s bs = Ok (n, ip', s') -> psd (sP s').
Proof. exact thm_run_psd'. Qed.
Print Assumptions C17_propagation_keeps_covariance.
Theorem C17_constructed_noise_is_ok : forall q e c, noise_ok (ImuPropagation q e c).
Proof. exact ctor_noise_ok. Qed.
Print Assumptions C17_constructed_noise_is_ok.
(** ... and a sample from the past breaks it. *)
Theorem C17_backward_step_breaks_it : exists K ip m s t0 s',
  wfp K s /\ stprop s = Some t0 /\ noise_ok ip /\ contact_noise K (sQc s) /\
  psd (sP s) /\ i_t m < t0 /\ propagate_with ip m s = Ok s' /\ ~ psd (sP s').
Proof. exact thm_backward_not_psd. Qed.
Print Assumptions C17_backward_step_breaks_it.

Example C17_hyps : exists s ip bs, wfp 3 s /\ stprop s = Some 0 /\ ip_prev ip = Some imu_default /\ noise_ok ip /\
  contact_noise 3 (sQc s) /\ psd (sP s) /\ nondec 0 (map i_t (imu_default :: ip_queue ip ++ concat bs)) /\ length (concat bs) = 2%nat.
Proof.
  exists (ex_state 3 (meye 18) 0), (set_prev (ImuPropagation [] LeftInvariant no_cfg) imu_default), [[samp imu_default 1]; [samp imu_default 2]].
  split; [apply ex_wfp; auto; lia|]. split; [reflexivity|]. split; [reflexivity|]. split; [apply (ctor_noise_ok [] LeftInvariant no_cfg)|].
  split; [apply ex_noise|]. split; [apply psd_eye|]. split; [|reflexivity]. cbn. lra.
Qed.

(** C18: one step computes the solution of R' = R[w], v' = R a + g, p' = v at the
    end of the sample's interval; w and a are the bias-compensated body rates. *)
Theorem C18_exact_strapdown_integral : forall K ip m s t0 s' Rf vf pf,
  wfp K s -> stprop s = Some t0 -> propagate_with ip m s = Ok s' ->
  let w := rate ip m (gbias s) in let a := accel ip m (gbias s) (abias s) in let dt := i_t m - t0 in
  (w = vzero \/ TOLERANCE <= vnorm (dt *s w)) ->
  strapdown w a Rf vf pf -> Rf 0 = rot (sX s) -> vf 0 = col (sX s) 0 -> pf 0 = col (sX s) 1 ->
  rot (sX s') = Rf dt /\ col (sX s') 0 = vf dt /\ col (sX s') 1 = pf dt.
Proof. exact thm_strapdown_unique. Qed.
Print Assumptions C18_exact_strapdown_integral.
(** ... and such a solution exists. *)
Theorem C18_strapdown_solution_exists : forall K ip m s t0 s',
  wfp K s -> stprop s = Some t0 -> propagate_with ip m s = Ok s' ->
  let w := rate ip m (gbias s) in let a := accel ip m (gbias s) (abias s) in let dt := i_t m - t0 in
  (w = vzero \/ TOLERANCE <= vnorm (dt *s w)) ->
  exists Rf vf pf, strapdown w a Rf vf pf /\
    Rf 0 = rot (sX s) /\ vf 0 = col (sX s) 0 /\ pf 0 = col (sX s) 1 /\
    rot (sX s') = Rf dt /\ col (sX s') 0 = vf dt /\ col (sX s') 1 = pf dt.
Proof. exact thm_strapdown. Qed.
Print Assumptions C18_strapdown_solution_exists.
(** C18: splitting an interval does not change the mean. *)
Theorem C18_no_discretisation_error : forall K ip m1 m2 s t0 sa sb sc,
  wfp K s -> stprop s = Some t0 -> same_reading m1 m2 ->
  let w := rate ip m1 (gbias s) in
  let exact dt := w = vzero \/ TOLERANCE <= vnorm (dt *s w) in
  exact (i_t m1 - t0) -> exact (i_t m2 - i_t m1) -> exact (i_t m2 - t0) ->
  propagate_with ip m1 s = Ok sa -> propagate_with ip m2 sa = Ok sb -> propagate_with ip m2 s = Ok sc ->
  sX sb = sX sc /\ sTheta sb = sTheta sc /\ stprop sb = stprop sc.
Proof. exact thm_split. Qed.
Print Assumptions C18_no_discretisation_error.

Example C18_hyps : exists s ip m, wfp 3 s /\ stprop s = Some 0 /\ (exists s', propagate_with ip m s = Ok s') /\
  let w := rate ip m (gbias s) in w <> vzero /\ TOLERANCE <= vnorm ((i_t m - 0) *s w).
Proof.
  set (ip := ImuPropagation [] LeftInvariant no_cfg). set (s := ex_state 3 (meye 18) 0).
  assert (wfp 3 s) as W by (apply ex_wfp; auto; lia).
  exists s, ip, (mkImu 1 (mkQ 1 0 0 0) (mkV 3 0 4) (mkV 1 2 3)).
  split; [exact W|]. split; [reflexivity|]. split; [eexists; apply (step_eq 3 ip _ s 0 W eq_refl)|].
  assert (rate ip (mkImu 1 (mkQ 1 0 0 0) (mkV 3 0 4) (mkV 1 2 3)) (gbias s) = mkV 3 0 4) as E.
  { unfold rate, gbias, s. cbn [sTheta ex_state]. replace (getV3 (mO 6 1) 0 0) with vzero by (unfold getV3, vmk; rewrite !ent_O; reflexivity).
    unfold ip. cbn [ip_Rib ImuPropagation no_cfg c_quat dflt i_w]. unfold toRotationMatrix. cbv zeta. cbn [qw qx qy qz]. apply V3_eq; u3; ring. }
  cbv zeta. rewrite E. cbn [i_t]. split; [intros C; injection C; lra|].
  unfold TOLERANCE, vnorm. replace (vdot _ _) with (5 * 5) by (u3; ring). rewrite sqrt_square by lra. lra.
Qed.

(** C19: two trajectories with the same biases and sample: if their invariant error
    is exp(hat xi) then afterwards it is exp(hat (Phi xi)), Phi being the group part
    of the very matrix the covariance is propagated with.  Any error size, any
    number of contacts, both conventions. *)
Theorem C19_loglinear_error : forall K ip m s1 s2 t0 s1' s2' Phi xi Y Y',
  wfp K s1 -> wfp K s2 -> stprop s1 = Some t0 -> stprop s2 = Some t0 -> sTheta s1 = sTheta s2 ->
  propagate_with ip m s1 = Ok s1' -> propagate_with ip m s2 = Ok s2' ->
  StateTransitionMatrix ip (rate ip m (gbias s1)) (accel ip m (gbias s1) (abias s1)) (i_t m - t0) s1 = Ok Phi ->
  inverse_of (3 + K) (sX s2) Y -> inverse_of (3 + K) (sX s2') Y' -> nr xi = (3 + 3 * K)%nat ->
  is_expm (hat K xi) (inv_error (ip_err ip) (sX s1) Y) ->
  is_expm (hat K (group_part K Phi *M xi)) (inv_error (ip_err ip) (sX s1') Y').
Proof. exact thm_loglinear. Qed.
Print Assumptions C19_loglinear_error.

(** C20: after any run the integrated samples, the retained one and the queue are,
    in order, exactly the retained one, the queue and the arrivals before; each was
    integrated over the interval from its predecessor; n calls returned true. *)
Theorem C20_each_sample_once : forall K bs ip s m0 t0 n ip' s',
  wfp K s -> stprop s = Some t0 -> ip_prev ip = Some m0 ->
  run ip s bs = Ok (n, ip', s') ->
  exists used m1, used ++ m1 :: ip_queue ip' = m0 :: ip_queue ip ++ concat bs /\
    ip_prev ip' = Some m1 /\ length used = n /\
    foldM (fun s m => propagate_with ip m s) s used = Ok s' /\
    stprop s' = Some (last (map i_t used) t0) /\ (n = O -> s' = s).
Proof. exact thm_each_sample_once. Qed.
Print Assumptions C20_each_sample_once.
(** Without a previous sample (no initialisation) the call dereferences null. *)
Theorem C20_uninitialised_dereferences_null : forall ip s x q, ip_queue ip = x :: q -> ip_prev ip = None ->
  Propagate ip s = Fail NullDeref.
Proof. exact thm_null_prev. Qed.
Print Assumptions C20_uninitialised_dereferences_null.

(** C36 *)
Theorem C36_quaternion_accepted_iff_near_unit : forall m w x y z,
  (Rabs (qnorm2 (mkQ w x y z) - 1) < 1 / 100000 ->
     set_quaternion m w x y z = (mkImu (i_t m) (mkQ w x y z) (i_w m) (i_a m), None)) /\
  (1 / 100000 <= Rabs (qnorm2 (mkQ w x y z) - 1) -> set_quaternion m w x y z = (m, Some Throw)).
Proof. exact thm_quat_accept. Qed.
Print Assumptions C36_quaternion_accepted_iff_near_unit.
Theorem C36_unit_quaternion_is_rotation : forall q, qnorm2 q = 1 -> SO3 (toRotationMatrix q).
Proof. exact thm_quat_unit. Qed.
Print Assumptions C36_unit_quaternion_is_rotation.
Theorem C36_accepted_quaternion_is_nearly_rotation : forall q, Rabs (qnorm2 q - 1) < 1 / 100000 ->
  (forall i j, (i < 3)%nat -> (j < 3)%nat ->
    Rabs (mget (mtr (toRotationMatrix q) *m toRotationMatrix q) i j - mget mid i j) <= 5 / 100000) /\
  Rabs (det3 (toRotationMatrix q) - 1) <= 5 / 100000.
Proof. exact thm_quat_near. Qed.
(** whatever the history of calls on a measurement object *)
Theorem C36_history : forall ops, Rabs (qnorm2 (i_q (fold_left imu_do ops imu_default)) - 1) < 1 / 100000.
Proof. exact thm_quat_history. Qed.
Print Assumptions C36_accepted_quaternion_is_nearly_rotation.
Print Assumptions C36_history.
Example C36_nontrivial : qnorm2 (mkQ (1/2) (1/2) (1/2) (1/2)) = 1 /\ validate_quat 1 1 0 0 = false.
Proof.
  split; [unfold qnorm2; cbn; field|]. unfold validate_quat. destruct (Rle_dec _ _) as [_|N]; [reflexivity|]. exfalso. apply N.
  replace (_ - 1) with 1 by ring. rewrite Rabs_R1. lra.
Qed.

(** C42 *)
Theorem C42_bias_is_mean_of_window : forall ip bs,
  ip_static ip = true -> (0 < ip_init_size ip)%Z -> ip_vec ip = [] -> ip_bias_init ip = false ->
  exists ip' used, calibrate ip bs = Ok ip' /\
    used ++ ip_queue ip' = ip_queue ip ++ concat bs /\
    (Z.of_nat (length used) <= ip_init_size ip)%Z /\
    (used <> [] -> ip_prev ip' = Some (last used imu_default)) /\
    (ip_bias_init ip' = false -> ip_bg0 ip' = ip_bg0 ip /\ ip_ba0 ip' = ip_ba0 ip) /\
    (ip_bias_init ip' = true -> Z.of_nat (length used) = ip_init_size ip /\
       is_mean (ip_bg0 ip') (map (rest_gyro ip) used) /\
       ((forall m, In m used -> SO3 (rest_orientation ip m)) ->
        is_mean (ip_ba0 ip') (map (fun m => rest_accel ip (rest_orientation ip m) m) used))) /\
    calib_same ip ip'.
Proof. exact thm_calibration. Qed.
Print Assumptions C42_bias_is_mean_of_window.
Theorem C42_priors_without_calibration : forall ip, ip_static ip = false ->
  InitImuBias ip = Ok (set_bias ip (ip_bg0 ip) (ip_ba0 ip)).
Proof. exact thm_no_calibration. Qed.
Print Assumptions C42_priors_without_calibration.
(** the default window size, 0, divides by zero *)
Theorem C42_empty_window_divides_by_zero : forall ip, ip_static ip = true -> ip_init_size ip = 0%Z -> ip_vec ip = [] ->
  InitImuBias ip = Fail DivZero.
Proof. exact thm_empty_window. Qed.
Print Assumptions C42_empty_window_divides_by_zero.
(** a negative size is compared as an unsigned number: calibration never ends *)
Theorem C42_negative_window_never_ends : forall ip, ip_static ip = true -> (- 1000000 <= ip_init_size ip < 0)%Z ->
  (Z.of_nat (length (ip_vec ip)) < 18446744073708551616)%Z ->
  InitImuBias ip = match ip_queue ip with [] => Ok ip
    | m :: q => Ok (set_prev (set_vec (set_queue ip q) (ip_vec ip ++ [calib_sample ip m])) m) end.
Proof. exact thm_negative_window. Qed.
Print Assumptions C42_negative_window_never_ends.
Example C42_hyps : let ip := ImuPropagation [] LeftInvariant (rest_cfg true None (mkV 1 2 3)) in
  ip_static ip = true /\ (0 < ip_init_size ip)%Z /\ ip_vec ip = [] /\ ip_bias_init ip = false /\
  exists ip', calibrate ip [[imu_default]; []] = Ok ip' /\ ip_bias_init ip' = true.
Proof.
  cbv zeta. split; [reflexivity|]. split; [reflexivity|]. split; [reflexivity|]. split; [reflexivity|].
  unfold calibrate, InitImuBias, ImuPropagation, rest_cfg. eexists. split; [reflexivity|]. reflexivity.
Qed.

(** C43: the exact drift of a robot at rest after calibration: position and velocity
    grow with the constant acceleration rest_drift. *)
Theorem C43_drift_of_a_robot_at_rest : forall K ip bs0 m0 ip1 b1 s ip2 s1 bs n ip3 s2,
  ip_static ip = true -> (0 < ip_init_size ip)%Z -> ip_vec ip = [] -> ip_bias_init ip = false ->
  Forall (same_reading m0) (ip_queue ip ++ concat bs0 ++ b1 ++ concat bs) ->
  calibrate ip bs0 = Ok ip1 -> ip_bias_init ip1 = true ->
  wfp K s -> col (sX s) 0 = vzero ->
  set_initial_state (set_queue ip1 (ip_queue ip1 ++ b1)) s = Ok (true, ip2, s1) ->
  run ip2 s1 bs = Ok (n, ip3, s2) ->
  (ip_use_ori ip = true -> qnorm2 (i_q m0) = 1 /\ SO3 (ip_Rib ip)) ->
  exists T1 T2, stprop s1 = Some T1 /\ stprop s2 = Some T2 /\
    rot (sX s2) = rot (sX s1) /\
    col (sX s2) 0 = (T2 - T1) *s rest_drift ip m0 /\
    col (sX s2) 1 = ((T2 - T1) ^ 2 / 2) *s rest_drift ip m0.
Proof. exact thm_drift. Qed.
Print Assumptions C43_drift_of_a_robot_at_rest.
(** ... which is zero, the claim, for a mounting without lever arm along the turn-rate
    bias and, if the IMU orientation is used, one that keeps gravity. *)
Theorem C43_stationary_robot_partial : forall K ip bs0 m0 ip1 b1 s ip2 s1 bs n ip3 s2,
  ip_static ip = true -> (0 < ip_init_size ip)%Z -> ip_vec ip = [] -> ip_bias_init ip = false ->
  Forall (same_reading m0) (ip_queue ip ++ concat bs0 ++ b1 ++ concat bs) ->
  calibrate ip bs0 = Ok ip1 -> ip_bias_init ip1 = true ->
  wfp K s -> col (sX s) 0 = vzero ->
  set_initial_state (set_queue ip1 (ip_queue ip1 ++ b1)) s = Ok (true, ip2, s1) ->
  run ip2 s1 bs = Ok (n, ip3, s2) ->
  cross (rest_gyro ip m0) (cross (rest_gyro ip m0) (ip_t ip)) = vzero ->
  (ip_use_ori ip = true -> qnorm2 (i_q m0) = 1 /\ SO3 (ip_Rib ip) /\ ip_Rib ip *v gravity = gravity) ->
  rot (sX s2) = rot (sX s1) /\ col (sX s2) 0 = vzero /\ col (sX s2) 1 = vzero.
Proof. exact thm_stationary. Qed.
Print Assumptions C43_stationary_robot_partial.
(** The unrestricted claim is false: any mounting with rest_drift <> 0 is a counterexample ... *)
Theorem C43_stationary_robot_refuted : forall e c m0, c_static c = Some true -> c_init_size c = Some 1%Z ->
  let ip := ImuPropagation [] e c in
  (ip_use_ori ip = true -> qnorm2 (i_q m0) = 1 /\ SO3 (ip_Rib ip)) -> rest_drift ip m0 <> vzero ->
  exists K bs0 ip1 b1 s ip2 s1 bs n ip3 s2,
  Forall (same_reading m0) (ip_queue ip ++ concat bs0 ++ b1 ++ concat bs) /\
  calibrate ip bs0 = Ok ip1 /\ ip_bias_init ip1 = true /\
  wfp K s /\ col (sX s) 0 = vzero /\
  set_initial_state (set_queue ip1 (ip_queue ip1 ++ b1)) s = Ok (true, ip2, s1) /\
  run ip2 s1 bs = Ok (n, ip3, s2) /\ col (sX s2) 0 <> vzero /\ col (sX s2) 1 <> vzero.
Proof. exact refute_rest. Qed.
Print Assumptions C43_stationary_robot_refuted.
(** ... such as a lever arm, or a sensor mounted upside down. *)
Example C43_refuted_lever : let ip := ImuPropagation [] LeftInvariant (rest_cfg false None (mkV 0 1 0)) in
  rest_drift ip (mkImu 0 (mkQ 1 0 0 0) (mkV 1 0 0) (mkV 0 0 (98 / 10))) <> vzero.
Proof. exact drift_lever. Qed.
Example C43_refuted_mount : let ip := ImuPropagation [] LeftInvariant (rest_cfg true (Some (mkQ 0 1 0 0)) vzero) in
  rest_drift ip (mkImu 0 (mkQ 1 0 0 0) vzero (mkV 0 0 (98 / 10))) <> vzero.
Proof. exact drift_mount. Qed.
(** the hypotheses of the positive theorems are met by the run of rest_example *)
Example C43_hyps : forall m0, let ip := ImuPropagation [] LeftInvariant (rest_cfg false None vzero) in
  exists ip1 s ip2 s1 n ip3 s2, wfp 2 s /\ col (sX s) 0 = vzero /\
    calibrate ip [[samp m0 0]; []] = Ok ip1 /\ ip_bias_init ip1 = true /\
    set_initial_state (set_queue ip1 (ip_queue ip1 ++ [samp m0 1])) s = Ok (true, ip2, s1) /\
    run ip2 s1 [[samp m0 2]; [samp m0 3]] = Ok (n, ip3, s2) /\
    stprop s1 = Some 1 /\ stprop s2 = Some 2 /\
    cross (rest_gyro ip m0) (cross (rest_gyro ip m0) (ip_t ip)) = vzero /\ (ip_use_ori ip = true -> False).
Proof.
  intros m0 ip. destruct (rest_example LeftInvariant (rest_cfg false None vzero) m0 eq_refl eq_refl) as
    (ip1 & s & ip2 & s1 & n & ip3 & s2 & H1 & H2 & H3 & H4 & H5 & H6 & H7 & H8); [discriminate|].
  exists ip1, s, ip2, s1, n, ip3, s2. repeat (split; [assumption|]). split; [|discriminate].
  change (ip_t ip) with vzero. generalize (rest_gyro ip m0). intros. ring3.
Qed.

(** C53: the left-invariant covariance transition matrix is the flow of the
    linearised error dynamics (biases included) ... *)
Theorem C53_transition_matrix_partial : forall K ip w a dt s Phi,
  wfp K s -> ip_err ip = LeftInvariant -> ip_enable ip = true ->
  1 / 1000000 <= vnorm w -> TOLERANCE <= vnorm (dt *s w) ->
  StateTransitionMatrix ip w a dt s = Ok Phi ->
  exists F, F 0 = meye (9 + 3 * K) /\
    (forall t, matderiv (9 + 3 * K) F t (left_dynamics K w a *M F t)) /\ F dt = Phi.
Proof. exact thm_transition. Qed.
Print Assumptions C53_transition_matrix_partial.
(** ... and the right-invariant one is its conjugate by the change of coordinates. *)
Theorem C53_right_transition_is_conjugate : forall K ip w a dt s s' PhiL PhiR,
  wfp K s ->
  StateTransitionMatrix (set_err ip LeftInvariant) w a dt s = Ok PhiL ->
  StateTransitionMatrix (set_err ip RightInvariant) w a dt s = Ok PhiR ->
  propagate_mean s w a dt = Ok s' ->
  PhiR *M L2R K (sX s) = L2R K s' *M PhiL.
Proof. exact thm_transition_conj. Qed.
Print Assumptions C53_right_transition_is_conjugate.
(** Below 1e-6 rad/s it is not (1/2 and 1/6 are integer divisions in the code). *)
Theorem C53_slow_rotation_refuted : forall K ip s Phi,
  wfp K s -> ip_err ip = LeftInvariant -> ip_enable ip = true ->
  let w := vzero in let a := mkV 1 0 0 in
  StateTransitionMatrix ip w a 1 s = Ok Phi ->
  ~ exists F, F 0 = meye (9 + 3 * K) /\
    (forall t, matderiv (9 + 3 * K) F t (left_dynamics K w a *M F t)) /\ F 1 = Phi.
Proof. exact thm_transition_bad. Qed.
Print Assumptions C53_slow_rotation_refuted.
Example C53_hyps : exists K ip w a dt s Phi, wfp K s /\ ip_err ip = LeftInvariant /\ ip_enable ip = true /\
  1 / 1000000 <= vnorm w /\ TOLERANCE <= vnorm (dt *s w) /\ StateTransitionMatrix ip w a dt s = Ok Phi.
Proof.
  exists 3%nat, (ImuPropagation [] LeftInvariant (mkICfg None None None None None None None None None None (Some true) None)),
    (mkV 3 0 4), (mkV 1 2 3), 1, (ex_state 3 (meye 18) 0).
  assert (wfp 3 (ex_state 3 (meye 18) 0)) as W by (apply ex_wfp; auto; lia).
  eexists. split; [exact W|]. split; [reflexivity|]. split; [reflexivity|].
  assert (vnorm (mkV 3 0 4) = 5) as E by (unfold vnorm; replace (vdot _ _) with (5 * 5) by (u3; ring); rewrite sqrt_square; lra).
  split; [rewrite E; lra|]. split; [rewrite vscal_1, E; unfold TOLERANCE; lra|]. apply (STM_ok 3); auto.
Qed.

(** C54: a run in left-invariant coordinates and the run in right-invariant
    coordinates started from the re-expressed covariance give the same estimates
    and, re-expressed, the same covariances. *)
Theorem C54_convention_independent_propagation : forall K bs ip s t0 n ipl sl,
  wfp K s -> stprop s = Some t0 ->
  run (set_err ip LeftInvariant) s bs = Ok (n, ipl, sl) ->
  exists ipr, run (set_err ip RightInvariant) (as_right K s) bs = Ok (n, ipr, as_right K sl) /\
    ipr = set_err ipl RightInvariant.
Proof. exact thm_run_convention. Qed.
Print Assumptions C54_convention_independent_propagation.
