(** Specification vocabulary for C57: two estimators that differ in the error convention. *)
From Coq Require Import Reals ZArith List Bool Arith.
From Verif Require Import Res Vec3 Mat LieGroup RobotState Inekf SpecFilter Imu Propagation VelCorr LegCorr Estimator SpecEst.
Import ListNotations.

(** the configuration with another error convention *)
Definition with_err (f : config) (e : error_type) : config := mkCfg e (f_est f) (f_imu f) (f_corrs f).

(** the same pose, velocity, contacts, biases, ids and times; the covariance is the same
    one, in left-invariant coordinates on one side and right-invariant ones on the other *)
Definition same_estimate (sl sr : rstate) : Prop :=
  sr = set_P sl (right_cov (nc (sX sl) - 3) LeftInvariant sl).

(** everything a user can see of the two estimators *)
Record same_output (el er : est) : Prop := {
  so_state : same_estimate (e_state el) (e_state er);
  so_enabled : e_enabled er = e_enabled el;
  so_out : Forall2 same_estimate (e_out el) (e_out er);
  so_logq : Forall2 same_estimate (e_logq el) (e_logq er);
  so_lines : e_lines er = e_lines el;
  so_opened : e_opened er = e_opened el }.

Definition is_init_op (o : op) : bool := match o with OInitState _ => true | _ => false end.
Definition any_op (o : op) : bool := true.
