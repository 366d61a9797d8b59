(** Specification vocabulary for C79: the same recording with another origin of the clock. *)
From Coq Require Import Reals List.
From Verif Require Import Res RobotState Imu Propagation VelCorr LegCorr Estimator.
Import ListNotations.
Local Open Scope R_scope.

(** every sensor stamps its samples d seconds later *)
Definition imu_later (d : R) (m : imu) : imu := mkImu (i_t m + d) (i_q m) (i_w m) (i_a m).
Definition vel_later (d : R) (m : vmeas) : vmeas := mkVM (vm_t m + d) (vm_v m).
Definition leg_later (d : R) (m : lmeas) : lmeas := mkLM (lm_t m + d) (lm_legs m) (lm_initv m).
Definition arr_later (d : R) (a : arrivals) : arrivals := mkArr (map (map (vel_later d)) (a_vel a)) (map (map (leg_later d)) (a_leg a)).
Definition op_later (d : R) (o : op) : op :=
  match o with
  | OImu m => OImu (imu_later d m)
  | OVel i m => OVel i (vel_later d m)
  | OLeg i m => OLeg i (leg_later d m)
  | OInitState l => OInitState (map (arr_later d) l)
  | ORunOnce l => ORunOnce (map (arr_later d) l)
  | o => o
  end.
(** a state with its two time stamps moved and nothing else *)
Definition state_later (d : R) (s : rstate) : rstate :=
  mkRS (stype s) (sX s) (sTheta s) (sP s) (scmap s) (option_map (fun t => t + d) (st s)) (option_map (fun t => t + d) (stprop s)) (sQc s) (sbav s) (sen s) (sslip s).
