(** Specification vocabulary for the log files. *)
From Coq Require Import Reals ZArith List Bool Arith String Ascii.
From Verif Require Import Res RobotState Inekf Imu Propagation VelCorr LegCorr Estimator SpecEst.
Import ListNotations.
Local Open Scope string_scope.

(** how often a history calls clear *)
Definition is_clear (o : op) : bool := match o with OClear => true | _ => false end.
Definition n_clear (os : list op) : nat := List.length (filter is_clear os).
(** the base name: the configured (or default) name without its extension *)
Definition base (o : option string) (d : string) : string := strip_ext (match o with Some n => n | None => d end).
(** all file names in a list of opened triples *)
Definition all_names (l : list (string * string * string)) : list string := flat_map (fun '(a, b, c) => [a; b; c]) l.
(** a configuration with two file names *)
Definition file_cfg (p v : string) : config := mkCfg RightInvariant (mkECfg true None None None (Some p) (Some v) None) (mkICfg None None None None None None None None None None None None) [].
(** the exact circumstances in which two of the files of a run with n clears coincide:
    the base names are equal or one continues the other by "_body_frame" or by a number
    that the other's files get *)
Definition clash (n : nat) (pose vel : string) : Prop :=
  pose = vel \/ pose = vel ++ "_body_frame" \/
  exists k, (k < n)%nat /\
    (vel = pose ++ "_" ++ to_string (3 * k + 1) \/ pose = vel ++ "_" ++ to_string (3 * k + 2) \/ pose = vel ++ "_body_frame_" ++ to_string (3 * k + 3)).
