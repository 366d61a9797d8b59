(** Property C80: the interleaving of callbacks and background threads. *)
From Coq Require Import Reals ZArith List Bool Lia Lra.
From Verif Require Import Res Vec3 Mat RobotState Imu VelCorr LegCorr Estimator SpecEst EstSafe EstEx ObsThms ClearEx ClearThms SpecConv SpecSched Sched SchedMore SchedEx.
Import ListNotations.
Local Open Scope R_scope.

(** C80.  Two histories that agree, resource by resource, on what happens in which order
    (each sensor queue, the queue of published states, the queue of the logger, the log files,
    the estimate) end in the same estimator and publish the same states; if one is legal so
    is the other. *)
Theorem C80_interleaving_irrelevant : forall f os os' e, same_per_resource os os' -> reachable f os e ->
  reachable f os' e /\ published any_op (build f) os' = published any_op (build f) os.
Proof. exact thm_interleaving. Qed.
Print Assumptions C80_interleaving_irrelevant.
(** the velocity is delivered before the calibration call instead of after it, and the reader
    of the published states and the logging thread run in another order *)
Example C80_example : exists os os' e, reachable exF os e /\ same_per_resource os os' /\ os <> os' /\
  os = exOps ++ [OLogPop; OLogWrite; OPopOut] /\ hd_error os' = Some (OVel 0 (exV (8 / 10))).
Proof. exact ex_interleaving. Qed.

(** The reader of the published states and the logging thread never influence the filter:
    leave them out of any legal history and the rest is legal, publishes the same states and
    ends in the same filter. *)
Theorem C80_readers_irrelevant : forall f os e, reachable f os e ->
  exists e', reachable f (without_readers os) e' /\ same_filter e' e /\
    published any_op (build f) (without_readers os) = published any_op (build f) os.
Proof. exact thm_readers. Qed.
Print Assumptions C80_readers_irrelevant.
Example C80_readers_example : exists e, reachable exF (exOps ++ [OLogPop; OLogWrite; OPopOut]) e /\ without_readers (exOps ++ [OLogPop; OLogWrite; OPopOut]) = exOps.
Proof. exact ex_readers. Qed.

(** On one queue the order against RunOnce does not matter either as long as nobody finds
    the queue empty: an IMU sample, the reader of published states and the logging thread may
    come before or after the call. *)
Theorem C80_not_starved : forall e o l r, not_starved e o ->
  (est_run e [o; ORunOnce l] = Ok r <-> est_run e [ORunOnce l; o] = Ok r).
Proof. exact thm_not_starved. Qed.
Print Assumptions C80_not_starved.
Example C80_not_starved_example : exists os e e', reachable exF os e /\ not_starved e (OImu (exM 3)) /\ not_starved e OPopOut /\ est_run e [OImu (exM 3); ORunOnce []] = Ok e'.
Proof. exact ex_not_starved. Qed.

(** A reading delivered just before a call is the same as one that arrives before the first
    critical section of its correction inside the call, for RunOnce and InitState. *)
Theorem C80_before_or_during : forall e i l,
  (forall m, est_run e [OVel i m; ORunOnce l] = est_run e [ORunOnce (at_arr i (add_arr_vel m) l)] /\
             est_run e [OVel i m; OInitState l] = est_run e [OInitState (at_arr i (add_arr_vel m) l)]) /\
  (forall m, est_run e [OLeg i m; ORunOnce l] = est_run e [ORunOnce (at_arr i (add_arr_leg m) l)] /\
             est_run e [OLeg i m; OInitState l] = est_run e [OInitState (at_arr i (add_arr_leg m) l)]).
Proof. intros e i l. split; intros m; [apply thm_early_vel|apply thm_early_leg]. Qed.
Print Assumptions C80_before_or_during.
(** the running example: the velocity of the correction step arrives during the call *)
Example C80_during_example : exists e e', reachable exF (exPre ++ [OInitState []; OImu (exM 2); ORunOnce []; ORunOnce [mkArr [[exV (9 / 10)]] []]]) e' /\
  est_run (build exF) exOps = Ok e' /\ reachable exF (exPre ++ [OInitState []; OImu (exM 2); ORunOnce []]) e /\ e' <> e.
Proof. exact ex_during. Qed.
