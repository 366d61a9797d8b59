(** Specification vocabulary for programs with a gyro filter (C74-C76). *)
From Coq Require Import Reals ZArith List Bool.
From Verif Require Import Res Vec3 Mat LieGroup RobotState Imu Propagation SpecProp ImuFilter SpecGyro VelCorr LegCorr Estimator SpecEst Driver SpecDriver System.
Import ListNotations.
Local Open Scope R_scope.

(** what the sensors deliver in a history *)
Definition s_gyros (vs : list sysev) : list imu := flat_map (fun v => match v with SGyro m => [m] | _ => [] end) vs.
Definition s_imus (vs : list sysev) : list imu := flat_map (fun v => match v with SImu m => [m] | _ => [] end) vs.
Definition s_avs (vs : list sysev) : list avmeas := flat_map (fun v => match v with SAv a => [a] | _ => [] end) vs.
(** only the sensors the program has, nothing else writes into the filtered buffer *)
Definition event_ok (l : list gadd) (v : sysev) : Prop :=
  match v with
  | SGyro _ => In AGyro l | SImu _ => In AImu l | SAv _ => In AAv l
  | SProg (EImu _) => False
  | _ => True
  end.
(** what the program may expect of its sensors: the stamps of the samples that correct the
    filter do not go backwards, the orientations passed on are unit quaternions *)
Definition inputs_ok (l : list gadd) (vs : list sysev) : Prop :=
  Forall (event_ok l) vs /\ imu_stream (s_imus vs) /\ sorted (map av_t (s_avs vs)) /\ (In AAv l -> Forall (fun m => qnorm2 (i_q m) = 1) (s_gyros vs)).

(** [l] is [l'] with some elements left out *)
Inductive sublist {A} : list A -> list A -> Prop :=
| sl_nil : sublist [] []
| sl_keep x l l' : sublist l l' -> sublist (x :: l) (x :: l')
| sl_skip x l l' : sublist l l' -> sublist l (x :: l').
