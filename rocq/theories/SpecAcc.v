(** Specification vocabulary for C85: what a setter may change. *)
From Coq Require Import Reals ZArith List Bool Arith Lia.
From Verif Require Import Res Vec3 Mat SEK3 RobotState.
Import ListNotations.
Local Open Scope R_scope.

(** M' is M with the block whose upper left corner is (i, j) replaced by B *)
Definition overwritten (i j : nat) (B M M' : mat) : Prop :=
  nr M' = nr M /\ nc M' = nc M /\
  (forall r c, (r < nr B)%nat -> (c < nc B)%nat -> ent M' (i + r) (j + c) = ent B r c) /\
  (forall r c, (r < i \/ i + nr B <= r \/ c < j \/ j + nc B <= c)%nat -> ent M' r c = ent M r c).
(** everything but mean, biases and covariance *)
Definition rest (s : rstate) := (stype s, scmap s, st s, stprop s, sQc s, (sbav s, sen s, sslip s)).
Definition only_mean (s s' : rstate) : Prop := sTheta s' = sTheta s /\ sP s' = sP s /\ rest s' = rest s.
Definition only_biases (s s' : rstate) : Prop := sX s' = sX s /\ sP s' = sP s /\ rest s' = rest s.
Definition only_cov (s s' : rstate) : Prop := sX s' = sX s /\ sTheta s' = sTheta s /\ rest s' = rest s.
(** a state as constructed: no landmark, no time yet, no noise, updates of the biases off *)
Definition fresh_state (X T P : mat) (s : rstate) : Prop :=
  sX s = X /\ sTheta s = T /\ sP s = P /\ scmap s = repeat None (nc X) /\ sQc s = mO (nc P) (nc P) /\
  st s = None /\ stprop s = None /\ sbav s = None /\ sen s = false /\ sslip s = 0%Z /\ stype s = WorldCentric.
(** the 3-block of a column vector at row i *)
Definition seg (T : mat) (i : nat) : V3 := mkV (ent T i 0) (ent T (i + 1) 0) (ent T (i + 2) 0).
(** the state matrix with rotation A and columns v, p *)
Definition pose5 (A : M3) (a b : V3) (X : mat) : Prop :=
  nr X = 5%nat /\ nc X = 5%nat /\ getM3 X 0 0 = A /\ getV3 X 0 3 = a /\ getV3 X 0 4 = b /\
  forall r c, (3 <= r < 5)%nat -> (c < 5)%nat -> ent X r c = if Nat.eqb r c then 1 else 0.
