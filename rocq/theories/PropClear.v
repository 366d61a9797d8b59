(** Property C30: clear() forgets the past. *)
From Coq Require Import Reals ZArith List Bool Lia Lra.
From Verif Require Import Res Vec3 Mat Spec LieGroup RobotState Inekf SpecFilter Imu Propagation VelCorr LegCorr Estimator SpecEst SpecConv SpecClear ClearThms ClearEx EstSafe EstEx ClearSlip.
Import ListNotations.
Local Open Scope R_scope.

(** C30.  Proved: two estimators of the same configuration with arbitrary legal pasts whose
    IMU calibrations agree behave the same after clear(), whatever follows: they fail in
    the same way or not at all, publish the same numbers in the same order, and at the
    end have the same estimate, the same waiting measurements and the same unread output.
    Missing (and false of the code, see below): different calibrations, and the log. *)
Theorem C30_clear_forgets_partial : forall f pre1 pre2 post a b,
  legal f (pre1 ++ OClear :: post) -> legal f (pre2 ++ OClear :: post) ->
  est_run (build f) pre1 = Ok a -> est_run (build f) pre2 = Ok b -> same_calibration a b ->
  exists a1 b1, Clear a = Ok a1 /\ Clear b = Ok b1 /\
  Forall2 same_numbers (published any_op a1 post) (published any_op b1 post) /\
  match est_run a1 post, est_run b1 post with
  | Ok x, Ok y => same_visible x y
  | Fail u, Fail v => u = v
  | _, _ => False
  end.
Proof. exact thm_clear. Qed.
Print Assumptions C30_clear_forgets_partial.
(** In particular everything that happened between the end of the calibration and clear()
    is forgotten. *)
Theorem C30_clear_after_calibration : forall f cal rest post c a,
  legal f (cal ++ rest ++ OClear :: post) -> legal f (cal ++ OClear :: post) ->
  est_run (build f) cal = Ok c -> BiasInitialized c = Ok true -> est_run c rest = Ok a ->
  exists a1 c1, Clear a = Ok a1 /\ Clear c = Ok c1 /\
  Forall2 same_numbers (published any_op a1 post) (published any_op c1 post) /\
  match est_run a1 post, est_run c1 post with
  | Ok x, Ok y => same_visible x y
  | Fail u, Fail v => u = v
  | _, _ => False
  end.
Proof. exact thm_clear_cal. Qed.
Print Assumptions C30_clear_after_calibration.
(** clear() keeps the calibration: two pasts with different calibration samples lead to
    different estimates after clear(). *)
Theorem C30_calibration_survives_refuted : exists f pre1 pre2 post a b a1 b1,
  legal f (pre1 ++ OClear :: post) /\ legal f (pre2 ++ OClear :: post) /\
  est_run (build f) pre1 = Ok a /\ est_run (build f) pre2 = Ok b /\ Clear a = Ok a1 /\ Clear b = Ok b1 /\
  ~ Forall2 same_numbers (published any_op a1 post) (published any_op b1 post).
Proof. exact thm_clear_calibration. Qed.
Print Assumptions C30_calibration_survives_refuted.
(** clear() keeps the time of the last log line: with the same calibration and the same
    calls after clear(), one estimator logs a line and the other one logs nothing.
    (This is also a non-trivial case of the hypotheses of the first two theorems.) *)
Theorem C30_log_clock_survives_refuted : exists f cal rest post c a a1 c1 x y, legal f (cal ++ rest ++ OClear :: post) /\ legal f (cal ++ OClear :: post) /\
  est_run (build f) cal = Ok c /\ BiasInitialized c = Ok true /\ est_run c rest = Ok a /\ same_calibration a c /\
  Clear a = Ok a1 /\ Clear c = Ok c1 /\ est_run a1 post = Ok x /\ est_run c1 post = Ok y /\
  e_lines x = e_lines a /\ e_lines y <> e_lines c.
Proof. exact thm_clear_log. Qed.
Print Assumptions C30_log_clock_survives_refuted.

(** What the state reads right after clear(): level, at rest at the origin, no biases, no
    contacts, unit covariance, no noise, no rotation rate; but the old time stamps. *)
Theorem C30_cleared_state : forall e e', Clear e = Ok e' ->
  let s := e_state e' in
  get_rotation s = Ok mid /\ get_velocity s = Ok vzero /\ get_position s = Ok vzero /\
  get_gyroscope_bias s = Ok vzero /\ get_accelerometer_bias s = Ok vzero /\ get_body_angular_velocity s = Ok vzero /\
  nr (sX s) = 5%nat /\ nc (sX s) = 5%nat /\ nr (sTheta s) = 6%nat /\ scmap s = repeat None 5 /\ sP s = meye 15 /\ sQc s = mO 15 15 /\
  get_time s = get_time (e_state e) /\ get_propagate_time s = get_propagate_time (e_state e) /\
  e_enabled e' = false /\ e_out e' = [] /\ imu_queue e' = [] /\ Forall (fun c => queued c = []) (e_corrs e').
Proof.
  intros e e' E. unfold Clear in E. destruct (e_prop e) as [ip|] eqn:Hip; [|discriminate]. cbn [of_opt bind] in E.
  assert (e_state e' = RS_clear (e_state e) /\ e_enabled e' = false /\ e_out e' = [] /\ imu_queue e' = [] /\ e_corrs e' = map corr_clear (e_corrs e)) as (-> & A1 & A2 & A3 & A4).
  { cbn [e_set e_logger e_names e_count] in E. destruct (e_logger e); [destruct (e_names e) as [a b]|]; injection E as <-; repeat split; reflexivity. }
  rewrite A1, A2, A3, A4. cbv zeta.
  do 12 (split; [try reflexivity; cbv; f_equal; try apply M3_eq; try apply V3_eq; reflexivity|]).
  do 5 (split; [reflexivity|]). clear. apply Forall_forall. intros c Hc. apply in_map_iff in Hc. destruct Hc as (d & <- & _). destruct d; reflexivity.
Qed.
Print Assumptions C30_cleared_state.
Example C30_cleared_state_ex : exists e e', e_enabled e = true /\ Clear e = Ok e'.
Proof.
  assert (forall e ip, e_prop e = Some ip -> exists e', Clear e = Ok e') as H.
  { intros e ip Hip. unfold Clear. rewrite Hip. cbn [of_opt bind]. destruct (e_logger _); [destruct (e_names _)|]; eexists; reflexivity. }
  destruct ex_states as (e4 & e5 & e6 & e7 & e8 & R3 & S4 & S5 & S6 & S7 & S8 & P3 & _). exists e4.
  cbn [est_step] in S5. destruct (e_prop e4) as [ip|] eqn:Hip; [|discriminate]. destruct (H e4 ip Hip) as [e' E]. exists e'. auto.
Qed.

(** C50, whole histories: the slip flag of the estimate is 0 for ever. *)
Theorem C50_flag_always_zero : forall f os e, est_run (build f) os = Ok e -> sslip (e_state e) = 0%Z.
Proof. exact run_slip. Qed.
Print Assumptions C50_flag_always_zero.
