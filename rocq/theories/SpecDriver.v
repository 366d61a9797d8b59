(** Specification vocabulary for the shipped main programs. *)
From Coq Require Import Reals ZArith List Bool.
From Verif Require Import Res RobotState Imu Propagation VelCorr LegCorr Estimator SpecEst Driver.
Import ListNotations.
Local Open Scope R_scope.

(** the IMU samples delivered to a program *)
Fixpoint samples (vs : list event) : list imu :=
  match vs with
  | [] => []
  | EImu m :: vs => m :: samples vs
  | _ :: vs => samples vs
  end.
(** the configured calibration window: how many samples are used for the biases *)
Definition window (f : config) : nat :=
  if dflt (c_static (f_imu f)) true then Z.to_nat (dflt (c_init_size (f_imu f)) 0%Z) else 0%nat.
(** an IMU sample is waiting *)
Definition waiting_sample (e : est) : bool := match imu_queue e with [] => false | _ => true end.

(** how many states the iterations that begin in a state selected by [sel] publish *)
Fixpoint yield (sel : est -> bool) (e : est) (vs : list event) : nat :=
  match vs with
  | [] => 0
  | v :: vs =>
    match prog_step e v with
    | Ok e' => (match v with EIter _ => if sel e then length (e_out e') - length (e_out e) else 0 | _ => 0 end) + yield sel e' vs
    | Fail _ => 0
    end
  end.
(** how many iterations begin in a state selected by [sel] *)
Fixpoint iterations (sel : est -> bool) (e : est) (vs : list event) : nat :=
  match vs with
  | [] => 0
  | v :: vs =>
    match prog_step e v with
    | Ok e' => (match v with EIter _ => if sel e then 1 else 0 | _ => 0 end) + iterations sel e' vs
    | Fail _ => 0
    end
  end.
