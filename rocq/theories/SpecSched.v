(** Specification vocabulary for C80: which orders of calls and callbacks are the same. *)
From Coq Require Import List Bool Arith.
From Verif Require Import Res RobotState VelCorr LegCorr Estimator SpecEst.
Import ListNotations.

(** ** What the threads share.  Two operations are ordered with respect to each other only
    if both use one of these. *)
Inductive resource :=
| RCore                 (** the estimate itself: only the thread that calls the estimator *)
| RImu                  (** the queue of IMU samples *)
| RVel (i : nat)        (** the queue of correction number i, filled with velocities *)
| RLeg (i : nat)        (** the queue of correction number i, filled with leg readings *)
| ROut                  (** the queue of published states *)
| RLogQueue             (** the queue of states to be logged *)
| RLogFiles.            (** the log files *)
Definition uses (r : resource) (o : op) : bool :=
  match r, o with
  | RCore, (OInitBias | OInitState _ | ORunOnce _ | OClear) => true
  | RImu, (OImu _ | OInitBias | OInitState _ | ORunOnce _ | OClear) => true
  | RVel i, OVel j _ => Nat.eqb i j
  | RVel _, (OInitState _ | ORunOnce _ | OClear) => true
  | RLeg i, OLeg j _ => Nat.eqb i j
  | RLeg _, (OInitState _ | ORunOnce _ | OClear) => true
  | ROut, (OPopOut | OInitState _ | ORunOnce _ | OClear) => true
  | RLogQueue, (OLogPop | ORunOnce _ | OClear) => true
  | RLogFiles, (OLogPop | OLogWrite | OClear) => true
  | _, _ => false
  end.
(** the two histories agree on what happens to each resource, and in which order;
    the interleaving across resources is free *)
Definition same_per_resource (os os' : list op) : Prop :=
  forall r, filter (uses r) os = filter (uses r) os'.

(** ** The threads that only read what the estimator hands out *)
Definition is_reader (o : op) : bool := match o with OPopOut | OLogPop | OLogWrite => true | _ => false end.
Definition without_readers (os : list op) : list op := filter (fun o => negb (is_reader o)) os.
(** everything except the output queue and what belongs to the logging thread *)
Record same_filter (a b : est) : Prop := {
  sf_err : e_err a = e_err b; sf_state : e_state a = e_state b; sf_heap : e_heap a = e_heap b;
  sf_prop : e_prop a = e_prop b; sf_corrs : e_corrs a = e_corrs b; sf_enabled : e_enabled a = e_enabled b;
  sf_logger : e_logger a = e_logger b; sf_rate : e_rate a = e_rate b; sf_names : e_names a = e_names b;
  sf_count : e_count a = e_count b; sf_files : e_files a = e_files b; sf_opened : e_opened a = e_opened b;
  sf_rot : e_rot_cov a = e_rot_cov b; sf_vel : e_vel_cov a = e_vel_cov b; sf_pos : e_pos_cov a = e_pos_cov b;
  sf_slip : e_slip a = e_slip b }.

(** the queue that o fills or empties has an element to offer to whoever comes first *)
Definition not_starved (e : est) (o : op) : Prop :=
  match o with
  | OImu _ => imu_queue e <> []
  | OPopOut => e_out e <> []
  | OLogPop => e_logq e <> []
  | OLogWrite => True
  | _ => False
  end.

(** one more reading in the first batch that arrives at correction i *)
Definition add_batch {A} (x : A) (l : list (list A)) : list (list A) :=
  match l with [] => [[x]] | b :: bs => (x :: b) :: bs end.
Definition add_arr_vel (m : vmeas) (a : arrivals) : arrivals := mkArr (add_batch m (a_vel a)) (a_leg a).
Definition add_arr_leg (m : lmeas) (a : arrivals) : arrivals := mkArr (a_vel a) (add_batch m (a_leg a)).
Fixpoint at_arr (i : nat) (f : arrivals -> arrivals) (l : list arrivals) : list arrivals :=
  match i with
  | 0 => f (hd_arr l) :: tl_arr l
  | S i => hd_arr l :: at_arr i f (tl_arr l)
  end.
