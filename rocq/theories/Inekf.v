(** Model of src/filter/inekf/inekf.cpp (the two invariant measurement updates). *)
From Coq Require Import Reals ZArith List Bool Lia.
From Verif Require Import Res Vec3 Mat MatInv LieGroup RobotState.
Import ListNotations.
Local Open Scope R_scope.

(** include/drift/filter/inekf/inekf.h: enum ErrorType *)
Inductive error_type := LeftInvariant | RightInvariant.

(** inekf.cpp:37-47 and, verbatim the same, 112-122: with bias estimation
    disabled the bias block is reset to 0.0001 I and decorrelated.  The block is
    the fixed size 6 whatever dimTheta is. *)
Definition remove_bias (s : rstate) (P : mat) : res mat :=
  if sen s then Ok P else
  let* k := idx (Z.of_nat (dimP s) - Z.of_nat (dimTheta s)) in
  let dt := dimTheta s in
  let* P := cput P k k ((1 / 10000) *S meye 6) in
  let* P := cput P 0 k (mO k dt) in
  cput P k 0 (mO dt k).

(** inekf.cpp:51-54, 90-93, 126-129, 158-161: A P A^T where A is the identity
    with its top-left (dimP - dimTheta) block replaced by Adjoint_SEK3(X).
    Assigning a matrix of another size to the block asserts. *)
Definition adj_conj (dP dT : nat) (X P : mat) : res mat :=
  let* k := idx (Z.of_nat dP - Z.of_nat dT) in
  let* A := Adjoint_SEK3 X in
  let* _ := check ((nr A =? k) && (nc A =? k))%nat EigenAssert in
  let* A := cput (meye dP) 0 0 A in
  let* AP := cmul A P in
  cmul AP (mT A).

(** inekf.cpp:58-60 and 133-135: PHT, S and the gain. *)
Definition kalman_gain (P H N : mat) : res mat :=
  let* PHT := cmul P (mT H) in
  let* HP := cmul H PHT in
  let* Sm := cadd HP N in
  let* Si := cinv Sm in
  cmul PHT Si.

(** inekf.cpp:63-66 and 138-141: delta = K Z, split in its group part (returned
    through Exp_SEK3) and its bias part.  [VectorXd delta] needs one column. *)
Definition correction_vector (dT : nat) (K Z : mat) : res (mat * mat) :=
  let* delta := cmul K Z in
  let* _ := check (nc delta =? 1)%nat EigenAssert in
  let* k := idx (Z.of_nat (nr delta) - Z.of_nat dT) in
  let* xi := cblock delta 0 0 k 1 in
  let* dX := Exp_SEK3 xi in
  let* dTheta := cblock delta k 0 dT 1 in
  Ok (dX, dTheta).

(** inekf.cpp:79-81 and 152-154: Joseph form. *)
Definition joseph (dP : nat) (P K H N : mat) : res mat :=
  let* KH := cmul K H in
  let* IKH := csub (meye dP) KH in
  let* A := cmul IKH P in
  let* A := cmul A (mT IKH) in
  let* B := cmul K N in
  let* B := cmul B (mT K) in
  cadd A B.

(** inekf.cpp:85-87: row and column dimP-dimTheta+2 zeroed, 0.0001 on the diagonal. *)
Definition reset_yaw_bias (dP dT : nat) (P : mat) : res mat :=
  let* i := idx (Z.of_nat dP - Z.of_nat dT + 2) in
  let* P := cput P i 0 (mO 1 (nc P)) in
  let* P := cput P 0 i (mO (nr P) 1) in
  cput P i i ((1 / 10000) *S meye 1).

(** inekf.cpp:27-98 *)
Definition CorrectRightInvariant (Z H N : mat) (s : rstate) (e : error_type) : res rstate :=
  let X := sX s in
  let Theta := sTheta s in
  let dT := dimTheta s in
  let dP := dimP s in
  let* P := remove_bias s (sP s) in
  let* P := match e with LeftInvariant => adj_conj dP dT X P | RightInvariant => Ok P end in
  let* K := kalman_gain P H N in
  let* '(dX, dTheta) := correction_vector dT K Z in
  let* X_new := cmul dX X in
  let* dTheta := cput dTheta 2 0 (mO 1 1) in
  let* Theta_new := cadd Theta dTheta in
  let s := set_X s X_new in
  let s := set_theta s Theta_new in
  let* P_new := joseph dP P K H N in
  let* P_new := reset_yaw_bias dP dT P_new in
  let* P_new :=
    match e with
    | LeftInvariant => let* Xi := get_Xinv s in adj_conj dP dT Xi P_new
    | RightInvariant => Ok P_new
    end in
  Ok (set_P s P_new).

(** inekf.cpp:102-166.  Note the condition of line 125: the covariance is
    mapped with Adjoint(X^-1) when the error type is already LeftInvariant. *)
Definition CorrectLeftInvariant (Z H N : mat) (s : rstate) (e : error_type) : res rstate :=
  let X := sX s in
  let Theta := sTheta s in
  let dT := dimTheta s in
  let dP := dimP s in
  let* P := remove_bias s (sP s) in
  let* P :=
    match e with
    | LeftInvariant => let* Xi := get_Xinv s in adj_conj dP dT Xi P
    | RightInvariant => Ok P
    end in
  let* K := kalman_gain P H N in
  let* '(dX, dTheta) := correction_vector dT K Z in
  let* X_new := cmul X dX in
  let* Theta_new := cadd Theta dTheta in
  let s := set_X s X_new in
  let s := set_theta s Theta_new in
  let* P_new := joseph dP P K H N in
  let* P_new :=
    match e with
    | RightInvariant => adj_conj dP dT X_new P_new
    | LeftInvariant => Ok P_new
    end in
  Ok (set_P s P_new).
