(** Property C84: one iteration of the gyro filter is the textbook Kalman step with the configured parameters. *)
From Coq Require Import Reals ZArith List Bool Arith Lia Lra.
From Verif Require Import Res Vec3 Mat MatInv Psd Spec Imu Propagation ImuFilter SpecGyro SpecGyroStep GyroThms GyroHist GyroEx GyroMore GyroLive GyroStep.
Import ListNotations.
Local Open Scope R_scope.

(** One iteration, in any state reached by a configuration file, set-up calls and a history: the
    next gyro sample moves the rate by its difference from the one before and adds the configured
    noise; the correction method follows from the sensors added; a correction is the Kalman update
    of what the sensor sees, with the configured noise, mounting and time threshold; the result
    published carries the new rate. *)
Theorem C84_iteration : forall c l os g g', greach c l os g -> gf_init g = true -> gf_step g GRun = Ok g' -> g_iteration c l os g g'.
Proof. exact thm_gyro_iteration. Qed.
Print Assumptions C84_iteration.

(** The first estimate: zero rate and the configured bias, or the mean rate of the calibration
    window, with the configured covariance. *)
Theorem C84_start : forall c l os g g', greach c l os g -> gf_init g = false -> forallb no_gclear os = true -> In AImu l \/ dflt (q_static c) false = false ->
  gf_step g GRun = Ok g' -> gf_init g' = true -> g_starts c os g'.
Proof. exact thm_gyro_starts. Qed.
Print Assumptions C84_start.

(** an initialised filter with a waiting sample; a calibration that ends *)
Example C84_ex : (exists c l os g g', greach c l os g /\ gf_init g = true /\ q_of (gf_imu g) <> [] /\ gf_step g GRun = Ok g') /\
  (exists c l os g g', greach c l os g /\ gf_init g = false /\ forallb no_gclear os = true /\ In AImu l /\ gf_step g GRun = Ok g' /\ gf_init g' = true).
Proof.
  split.
  - destruct ex_run2 as (g' & E & _). exists no_gcfg, [AImu; AAv], [GRun; GImu (at_time 1)], ex_g1, g'. split; [split; [apply no_gcfg_ok|exact ex_run1]|].
    split; [reflexivity|]. split; [discriminate|]. unfold gf_run in E. cbn [foldM] in E. destruct (gf_step ex_g1 GRun); cbn [bind] in E; congruence.
  - destruct (ex_calib (at_time 1) (at_time 2)) as (g & g' & R & A & B & D). exists cal_gcfg, [AImu], [GImu (at_time 1); GImu (at_time 2); GRun; GRun], g, g'.
    split; [split; [split; discriminate|exact R]|]. split; [exact A|]. split; [reflexivity|]. split; [left; reflexivity|]. auto.
Qed.
