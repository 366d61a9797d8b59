(** Specification vocabulary for C70/C71: the world frame seen from another heading. *)
From Coq Require Import Reals ZArith List Bool Arith.
From Verif Require Import Res Vec3 Mat Spec LieGroup RobotState Inekf SpecFilter Imu Propagation VelCorr LegCorr Estimator SpecEst SpecConv.
Import ListNotations.
Local Open Scope R_scope.

(** a heading: a unit quaternion around the vertical axis, and its rotation matrix *)
Definition heading (q : quat) : Prop := qx q = 0 /\ qy q = 0 /\ qw q * qw q + qz q * qz q = 1.
Definition qmul (a b : quat) : quat :=
  mkQ (qw a * qw b - qx a * qx b - qy a * qy b - qz a * qz b)
      (qw a * qx b + qx a * qw b + qy a * qz b - qz a * qy b)
      (qw a * qy b - qx a * qz b + qy a * qw b + qz a * qx b)
      (qw a * qz b + qx a * qy b - qy a * qx b + qz a * qw b).

(** the same history with every IMU orientation reported in the world turned by q *)
Definition turn_imu (q : quat) (m : imu) : imu := mkImu (i_t m) (qmul q (i_q m)) (i_w m) (i_a m).
Definition turn_op (q : quat) (o : op) : op := match o with OImu m => OImu (turn_imu q m) | _ => o end.

(** the same state in the world turned by R: orientation, velocity, position and contact
    points (the first three rows of the state matrix) are multiplied by R on the left.
    The left-invariant error lives in the body frame and its covariance stays; the
    right-invariant error lives in the world frame: every 3-block of the covariance that does
    not belong to the biases turns. *)
Definition turn_X (R : M3) (X : mat) : mat :=
  mk (nr X) (nc X) (fun i j => if (i <? 3)%nat then mget R i 0 * ent X 0 j + mget R i 1 * ent X 1 j + mget R i 2 * ent X 2 j else ent X i j).
Definition turn_blocks (R : M3) (n : nat) : mat :=
  mk n n (fun i j => if ((i <? n - 6) && (j <? n - 6) && Nat.eqb (i / 3) (j / 3))%nat then mget R (i mod 3) (j mod 3) else if Nat.eqb i j then 1 else 0).
Definition turn_cov (e : error_type) (R : M3) (P : mat) : mat :=
  match e with
  | LeftInvariant => P
  | RightInvariant => turn_blocks R (nr P) *M P *M mT (turn_blocks R (nr P))
  end.
Definition turned (e : error_type) (R : M3) (s : rstate) : rstate := set_P (set_X s (turn_X R (sX s))) (turn_cov e R (sP s)).

(** a log line in the turned world: same file, time and body velocity; position and velocity
    turned; the quaternion denotes the turned orientation *)
Definition turned_line (R : M3) (a b : log_line) : Prop :=
  ll_file b = ll_file a /\ ll_t b = ll_t a /\ ll_p b = R *v ll_p a /\ ll_v b = R *v ll_v a /\ ll_bv b = ll_bv a /\
  toRotationMatrix (ll_q b) = R *m toRotationMatrix (ll_q a).

(** everything a user can see of the two estimators; before the initialisation (and after a
    clear) there is no pose yet and the two states are the same *)
Record turned_output (er : error_type) (R : M3) (a b : est) : Prop := {
  to_state : e_state b = if e_enabled a then turned er R (e_state a) else e_state a;
  to_enabled : e_enabled b = e_enabled a;
  to_out : e_out b = map (turned er R) (e_out a);
  to_logq : e_logq b = map (turned er R) (e_logq a);
  to_lines : Forall2 (turned_line R) (e_lines a) (e_lines b);
  to_opened : e_opened b = e_opened a }.

(** configurations that take the heading from the IMU: the orientation is used to
    initialise, and the static calibration, if any, sees an IMU whose mounting rotation is
    about the vertical axis *)
Definition uses_heading (f : config) : Prop :=
  dflt (c_use_ori (f_imu f)) false = true /\
  (dflt (c_static (f_imu f)) true = false \/ heading (dflt (c_quat (f_imu f)) (mkQ 1 0 0 0))).
(** configurations that do not use the IMU's orientation at all; other orientations *)
Definition ignores_orientation (f : config) : Prop := dflt (c_use_ori (f_imu f)) false = false.
Definition same_but_orientation (a b : op) : Prop :=
  match a, b with
  | OImu m, OImu m' => i_t m' = i_t m /\ i_w m' = i_w m /\ i_a m' = i_a m
  | _, _ => a = b
  end.
Record same_everything (a b : est) : Prop := {
  se_state : e_state b = e_state a;
  se_enabled : e_enabled b = e_enabled a;
  se_out : e_out b = e_out a;
  se_logq : e_logq b = e_logq a;
  se_lines : e_lines b = e_lines a;
  se_opened : e_opened b = e_opened a }.
