(** Specification vocabulary for the filter: error conventions, well-formed
    states, textbook Kalman update.  Independent of the model's helpers. *)
From Coq Require Import Reals ZArith List Bool Arith Lia.
From Verif Require Import Res Vec3 Mat MatInv Psd Spec RobotState Inekf.
Import ListNotations.
Local Open Scope R_scope.

(** A state with K columns besides the rotation (velocity, position, K-2
    contacts), six biases and a covariance of matching size. *)
Record wf (K : nat) (s : rstate) : Prop := {
  wf_X : SEK K (sX s);
  wf_Tr : nr (sTheta s) = 6%nat;
  wf_Tc : nc (sTheta s) = 1%nat;
  wf_Pr : nr (sP s) = (9 + 3 * K)%nat;
  wf_Pc : nc (sP s) = (9 + 3 * K)%nat }.

(** A linear measurement of size m: innovation Z, observation matrix H, noise N. *)
Definition measurement (K m : nat) (Z H N : mat) : Prop :=
  nr Z = m /\ nc Z = 1%nat /\ nr H = m /\ nc H = (9 + 3 * K)%nat /\ nr N = m /\ nc N = m.

(** cross-product matrix *)
Definition crossm (u : V3) : M3 := mkM 0 (- v2 u) (v1 u) (v2 u) 0 (- v0 u) (- v1 u) (v0 u) 0.

(** The change of error coordinates from left to right at X: the adjoint
    [R 0; [x_i]R R] on the group part, identity on the six biases. *)
Definition L2R (K : nat) (X : mat) : mat :=
  mk (9 + 3 * K) (9 + 3 * K) (fun i j =>
    if ((i <? 3 + 3 * K) && (j <? 3 + 3 * K))%nat then
      mget (if Nat.eqb (i / 3) (j / 3) then rot X
            else if Nat.eqb (j / 3) 0 then crossm (col X (i / 3 - 1)) *m rot X
            else mzero) (i mod 3) (j mod 3)
    else if Nat.eqb i j then 1 else 0).

(** The covariance of a state in right-invariant coordinates, when its stored
    covariance is in the coordinates e. *)
Definition right_cov (K : nat) (e : error_type) (s : rstate) : mat :=
  match e with
  | RightInvariant => sP s
  | LeftInvariant => L2R K (sX s) *M sP s *M mT (L2R K (sX s))
  end.

(** P with the indices of [m] decorrelated from everything and set to c I. *)
Definition reset_at (m : nat -> Prop) (c : R) (P P' : mat) : Prop :=
  nr P' = nr P /\ nc P' = nc P /\
  forall i j, (i < nr P)%nat -> (j < nc P)%nat ->
    ((m i \/ m j) -> ent P' i j = if Nat.eqb i j then c else 0) /\
    (~ m i -> ~ m j -> ent P' i j = ent P i j).

(** gain [G] of the Kalman update of P with H, N:  G (H P H^T + N) = P H^T *)
Definition is_gain (P H N G : mat) : Prop :=
  nr G = nr P /\ nc G = nr H /\ G *M (H *M P *M mT H +M N) = P *M mT H.
Definition joseph_form (P H N G : mat) : mat :=
  (meye (nr P) -M G *M H) *M P *M mT (meye (nr P) -M G *M H) +M G *M N *M mT G.

(** The group exponential as used by the filter: above the small-angle
    threshold 1e-10 the matrix exponential, below it the first-order one. *)
Definition retract (K : nat) (v X : mat) : Prop :=
  (/ 10 ^ 10 <= vnorm (getV3 v 0 0) -> is_expm (hat K v) X) /\
  (vnorm (getV3 v 0 0) < / 10 ^ 10 ->
     nr X = (3 + K)%nat /\ nc X = (3 + K)%nat /\
     forall i j, (i < 3 + K)%nat -> (j < 3 + K)%nat ->
       ent X i j = if (j <? 3)%nat then (if Nat.eqb i j then 1 else 0)
                   else if (i <? 3)%nat then ent v (3 + 3 * (j - 3) + i) 0
                   else if Nat.eqb i j then 1 else 0).

(** s and s' agree on everything but the estimate (X, Theta, P). *)
Definition same_meta (s s' : rstate) : Prop :=
  stype s' = stype s /\ scmap s' = scmap s /\ st s' = st s /\ stprop s' = stprop s /\
  sQc s' = sQc s /\ sbav s' = sbav s /\ sen s' = sen s /\ sslip s' = sslip s.

(** indices of the six biases / of the z gyroscope bias in the error state *)
Definition bias_index (K i : nat) : Prop := (3 + 3 * K <= i)%nat.
Definition yaw_bias_index (K i : nat) : Prop := i = (5 + 3 * K)%nat.
(** H does not observe the biases *)
Definition bias_free (K : nat) (H : mat) : Prop := forall i j, bias_index K j -> ent H i j = 0.

(** A sequence of corrections. *)
Record corr := mkCorr { c_right : bool; c_Z : mat; c_H : mat; c_N : mat; c_e : error_type }.
Definition apply_corr (s : rstate) (c : corr) : res rstate :=
  if c_right c then CorrectRightInvariant (c_Z c) (c_H c) (c_N c) s (c_e c)
  else CorrectLeftInvariant (c_Z c) (c_H c) (c_N c) s (c_e c).
Definition corr_ok (K : nat) (c : corr) : Prop := exists m, measurement K m (c_Z c) (c_H c) (c_N c).
