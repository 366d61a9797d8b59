(** Specification vocabulary for C76, C77: what an odometry filter cannot know.  The estimator
    only sees inertial data, body velocities and foot positions relative to the body; all of them
    stay the same when the whole world is shifted, or turned about the vertical. *)
From Coq Require Import Reals ZArith List Bool Arith Lia.
From Verif Require Import Res Vec3 Mat MatInv Psd Spec RobotState Inekf SpecFilter Imu Propagation SpecProp Estimator SpecEst.
Import ListNotations.
Local Open Scope R_scope.

(** turn about the vertical (z) axis *)
Definition rotz (b : R) : M3 := mkM (cos b) (- sin b) 0 (sin b) (cos b) 0 0 0 1.
(** the pose matrix after turning the world by the angle b about the vertical through the
    origin and then shifting it by a: orientation, velocity, position and contacts move along *)
Definition moved (K : nat) (b : R) (a : V3) (X : mat) : mat :=
  mk (3 + K) (3 + K) (fun i j =>
    if (i <? 3)%nat then
      if (j <? 3)%nat then mget (rotz b *m rot X) i j
      else vget (rotz b *v col X (j - 3) +v (if Nat.eqb j 3 then vzero else a)) i
    else if Nat.eqb i j then 1 else 0).

(** the same movement as a direction of the filter's error (orientation, velocity, position,
    contacts, biases): angular part about z at rate w, position and all contacts along a *)
Definition world_move (K : nat) (w : R) (a : V3) : mat :=
  mk (9 + 3 * K) 1 (fun i _ =>
    if (i <? 6)%nat then (if Nat.eqb i 2 then w else 0)
    else if (i <? 3 + 3 * K)%nat then vget a (i mod 3) else 0).

(** the part of the linear combination y of the error that lies along the direction N *)
Definition along (N y : mat) : R := ent (mT N *M y) 0 0.
(** the variance of every linear combination y of the error is at least c times the square of
    its part along N; equivalently (for invertible P) the information about that direction,
    N^T P^-1 N, is at most 1/c *)
Definition variance_floor (P N : mat) (c : R) : Prop :=
  forall y, nr y = nr P -> nc y = 1%nat -> c * (along N y) ^ 2 <= quad P y.

(** an estimate, stored in the convention e, whose uncertainty about the world movement (w, a) is at least c *)
Definition uncertain (e : error_type) (s : rstate) (w : R) (a : V3) (c : R) : Prop :=
  let K := (nc (sX s) - 3)%nat in variance_floor (right_cov K e s) (world_move K w a) c.

(** the 3x3 blocks of a covariance *)
Definition cov_block (P : mat) (b : nat) : M3 := getM3 P (3 * b) (3 * b).
(** covariance of (block b) - (block b') *)
Definition diff_cov (P : mat) (b b' : nat) : M3 :=
  getM3 P (3 * b) (3 * b) +m (-1) *ms getM3 P (3 * b) (3 * b') +m (-1) *ms getM3 P (3 * b') (3 * b) +m getM3 P (3 * b') (3 * b').
(** covariance of the velocity, and of contact k relative to the body, of an estimate stored in
    the convention e (world axes, right-invariant coordinates; blocks: 0 orientation, 1 velocity,
    2 position, 3+k contact k) *)
Definition velocity_cov (e : error_type) (s : rstate) : M3 := cov_block (right_cov (nc (sX s) - 3) e s) 1.
Definition foot_cov (e : error_type) (s : rstate) (k : nat) : M3 := diff_cov (right_cov (nc (sX s) - 3) e s) (3 + k) 2.
(** M <= N as symmetric matrices *)
Definition m3_le (M N : M3) : Prop := forall u : V3, vdot u (M *v u) <= vdot u (N *v u).

(** a statement about every estimate a history produces: whatever InitState or RunOnce publish
    (no other call publishes), and the current estimate once initialised *)
Definition each_estimate (f : config) (os : list op) (P : rstate -> Prop) : Prop :=
  Forall P (published is_filter_op (build f) os) /\ forall e, est_run (build f) os = Ok e -> e_enabled e = true -> P (e_state e).
