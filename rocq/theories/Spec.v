(** Specification vocabulary: textbook definitions, independent of the model. *)
From Coq Require Import Reals List Bool Arith Lia.
From Verif Require Import Res Vec3 Mat MatInv Psd.
Import ListNotations.
Local Open Scope R_scope.

(** Rotation matrices *)
Definition SO3 (A : M3) : Prop := mtr A *m A = mid /\ det3 A = 1.

(** The matrix of the linear map [u |-> w x u]. *)
Definition is_cross_matrix (A : M3) (w : V3) : Prop := forall u, A *v u = cross w u.

(** Entrywise sum of the series  sum_n a_n A^n  *)
Definition matrix_series3 (a : nat -> R) (A G : M3) : Prop :=
  forall i j, (i < 3)%nat -> (j < 3)%nat ->
    infinite_sum (fun n => a n * mget (mpow A n) i j) (mget G i j).

(** SE_K(3), embedded as (3+K)x(3+K) matrices [R x_1 .. x_K; 0 I]. *)
Record SEK (K : nat) (X : mat) : Prop := {
  sek_rows : nr X = (3 + K)%nat;
  sek_cols : nc X = (3 + K)%nat;
  sek_rot : SO3 (getM3 X 0 0);
  sek_bot : forall i j, (3 <= i < 3 + K)%nat -> (j < 3 + K)%nat ->
              ent X i j = if Nat.eqb i j then 1 else 0 }.

(** rotation and i-th column of an element of SE_K(3) *)
Definition rot (X : mat) : M3 := getM3 X 0 0.
Definition col (X : mat) (i : nat) : V3 := getV3 X 0 (3 + i).

(** The Lie algebra element [w]_x, u_1 .. u_K of a tangent vector of size 3+3K. *)
Definition hat (K : nat) (v : mat) : mat :=
  mk (3 + K) (3 + K) (fun i j =>
    if (i <? 3)%nat then
      if (j <? 3)%nat
      then mget (mkM 0 (- ent v 2 0) (ent v 1 0) (ent v 2 0) 0 (- ent v 0 0) (- ent v 1 0) (ent v 0 0) 0) i j
      else ent v (3 + 3 * (j - 3) + i) 0
    else 0).

Fixpoint matpow (A : mat) (n : nat) : mat :=
  match n with O => meye (nr A) | S n => matpow A n *M A end.

(** Entrywise matrix exponential. *)
Definition is_expm (A G : mat) : Prop :=
  nr G = nr A /\ nc G = nc A /\
  forall i j, (i < nr A)%nat -> (j < nc A)%nat ->
    infinite_sum (fun n => / INR (fact n) * ent (matpow A n) i j) (ent G i j).

(** X and Y are mutually inverse n x n matrices. *)
Definition inverse_of (n : nat) (X Y : mat) : Prop :=
  nr X = n /\ nc X = n /\ nr Y = n /\ nc Y = n /\ X *M Y = meye n /\ Y *M X = meye n.
