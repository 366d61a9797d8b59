(** Property C57: the whole filter does not depend on the error convention. *)
From Coq Require Import Reals ZArith List Bool Lia Lra.
From Verif Require Import Res Vec3 Mat Spec LieGroup RobotState Inekf SpecFilter Imu Propagation VelCorr LegCorr Estimator SpecEst SpecConv ConvEst ConvEx.
Import ListNotations.
Local Open Scope R_scope.

(** C57.  Proved: for every configuration and every legal history in which InitState only
    produces zero velocities, the two estimators follow the same protocol, fail in the same
    way or not at all, publish the same estimates in the same order (covariances related by the
    change of coordinates at the estimate) and write the same log lines to the same files.
    Missing: histories with a non-zero initial velocity, for which the claim is false. *)
Theorem C57_convention_independent_filter_partial : forall f os, config_ok f -> imu_stream (imus os) -> protocol (build (with_err f LeftInvariant)) os ->
  (forall s, In s (published is_init_op (build (with_err f LeftInvariant)) os) -> col (sX s) 0 = vzero) ->
  let el := build (with_err f LeftInvariant) in let er := build (with_err f RightInvariant) in
  protocol er os /\ Forall2 same_estimate (published any_op el os) (published any_op er os) /\
  match est_run el os, est_run er os with
  | Ok a, Ok b => same_output a b
  | Fail a, Fail b => a = b
  | _, _ => False
  end.
Proof. exact thm_conv. Qed.
Print Assumptions C57_convention_independent_filter_partial.
(** a history with initialisation at zero velocity, an IMU sample and a RunOnce *)
Example C57_example : config_ok cvF /\ imu_stream (imus (cvOps vzero)) /\ protocol (build (with_err cvF LeftInvariant)) (cvOps vzero) /\
  (forall s, In s (published is_init_op (build (with_err cvF LeftInvariant)) (cvOps vzero)) -> col (sX s) 0 = vzero) /\
  exists s, published any_op (build (with_err cvF LeftInvariant)) (cvPre vzero ++ [OInitState []]) = [s].
Proof.
  destruct (cv_protocol LeftInvariant vzero) as (A & _ & B & s & C & _). split; [apply (cvF_ok LeftInvariant)|]. split; [apply cv_stream|]. eauto 10.
Qed.
(** InitState writes the same diagonal covariance in both conventions; with a non-zero
    initial velocity these are different uncertainties. *)
Theorem C57_convention_independent_filter_refuted : exists f os sl sr, config_ok f /\ imu_stream (imus os) /\
  protocol (build (with_err f LeftInvariant)) os /\ protocol (build (with_err f RightInvariant)) os /\
  published any_op (build (with_err f LeftInvariant)) os = [sl] /\ published any_op (build (with_err f RightInvariant)) os = [sr] /\ ~ same_estimate sl sr.
Proof. exact thm_conv_refuted. Qed.
Print Assumptions C57_convention_independent_filter_refuted.
