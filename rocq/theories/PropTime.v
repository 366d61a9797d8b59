(** Property C79: the origin of the clock. *)
From Coq Require Import Reals List.
From Verif Require Import Res RobotState Imu VelCorr Estimator SpecEst EstEx SpecConv SpecTime TimeEst SchedEx TimeLog.
Import ListNotations.
Local Open Scope R_scope.

(** C79.  Move every time stamp of a legal history by the same d (another epoch, another boot
    time): the history stays legal, and the estimator publishes the same states with their time
    stamps moved by d, and nothing else changed. *)
Theorem C79_clock_origin : forall d f os e, reachable f os e ->
  exists e', reachable f (map (op_later d) os) e' /\ e_state e' = state_later d (e_state e) /\ e_enabled e' = e_enabled e /\
    published any_op (build f) (map (op_later d) os) = map (state_later d) (published any_op (build f) os).
Proof. exact thm_clock. Qed.
Print Assumptions C79_clock_origin.
(** the running example, recorded in 2024 *)
Example C79_example : exists e, reachable exF exOps e /\ imus (map (op_later 1700000000) exOps) = [imu_later 1700000000 (exM 1); imu_later 1700000000 (exM 2)].
Proof. destruct ex_full as [e R]. exists e. split; [exact R|reflexivity]. Qed.
(** The log is not part of that: the time of the last line is initially 0, so whether a first
    sample is logged depends on where the clock starts. *)
Theorem C79_log_depends_on_origin : exists f os d e e', reachable f os e /\ reachable f (map (op_later d) os) e' /\
  length (e_lines e) = 1%nat /\ e_lines e' = [].
Proof. exact thm_log_origin. Qed.
Print Assumptions C79_log_depends_on_origin.
