(** Model of src/math/lie_group.cpp. *)
From Coq Require Import Reals ZArith List Bool Lia.
From Verif Require Import Res Vec3 Mat.
Import ListNotations.
Local Open Scope R_scope.

(** src/math/lie_group.cpp:20 *)
Definition TOLERANCE : R := / 10 ^ 10.

(** [long int] multiplication: signed overflow is undefined behaviour. *)
Definition long_max : Z := 9223372036854775807%Z.
Definition lmul (a b : Z) : res Z :=
  let c := (a * b)%Z in
  if ((- long_max - 1 <=? c) && (c <=? long_max))%Z then Ok c else Fail IntOverflow.

(** src/math/lie_group.cpp:22-24 [factorial].  The argument is the C++ [int];
    the recursion does not terminate for negative [n]; its only caller
    (Gamma_SO3) asserts [m >= 0], so the model takes a [nat]. *)
Fixpoint factorial (n : nat) : res Z :=
  match n with
  | O => Ok 1%Z
  | S k => let* f := factorial k in lmul f (Z.of_nat n)
  end.

(** src/math/lie_group.cpp:26-31 [skew] *)
Definition skew (v : V3) : M3 :=
  mkM 0 (- v2 v) (v1 v)
      (v2 v) 0 (- v0 v)
      (- v1 v) (v0 v) 0.

(** src/math/lie_group.cpp:65-72, the loop of the general case:
    kfactorial, Ak, S after k iterations *)
Fixpoint gamma_loop (A : M3) (k : nat) : res (Z * M3 * M3) :=
  match k with
  | O => Ok (1%Z, mid, mid)
  | S k' =>
    let* '(f, Ak, Sm) := gamma_loop A k' in
    let* f' := lmul f (Z.of_nat k) in
    let Ak' := Ak *m A in
    Ok (f', Ak', Sm +m (1 / IZR f') *ms Ak')
  end.

(** src/math/lie_group.cpp:33-86 [Gamma_SO3].  [assert(m >= 0)] is an outcome
    (with NDEBUG the negative case would fall into the undefined [factorial]). *)
Definition Gamma_SO3 (w : V3) (m : Z) : res M3 :=
  let* _ := check (0 <=? m)%Z AssertFail in
  let theta := vnorm w in
  if Rlt_dec theta TOLERANCE then
    let* f := factorial (Z.to_nat m) in
    Ok ((1 / IZR f) *ms mid)
  else
    let A := skew w in
    let theta2 := theta * theta in
    let R0 := mid +m (sin theta / theta) *ms A +m ((1 - cos theta) / theta2) *ms A *m A in
    match m with
    | 0%Z => Ok R0
    | 1%Z => Ok (mid +m ((1 - cos theta) / theta2) *ms A
                 +m ((theta - sin theta) / (theta2 * theta)) *ms A *m A)
    | 2%Z => Ok ((1 / 2) *ms mid +m ((theta - sin theta) / (theta2 * theta)) *ms A
                 +m ((theta2 + 2 * cos theta - 2) / (2 * theta2 * theta2)) *ms A *m A)
    | _ =>
      let n := Z.to_nat m in
      let* '(kfactorial, _, Sm) := gamma_loop A n in
      if Nat.odd n then
        Ok ((1 / IZR kfactorial) *ms mid
            +m ((- 1) ^ ((n + 1) / 2) / theta ^ (n + 1)) *ms A *m (R0 -m Sm))
      else
        Ok ((1 / IZR kfactorial) *ms mid
            +m ((- 1) ^ (n / 2) / theta ^ n) *ms (R0 -m Sm))
    end.

(** src/math/lie_group.cpp:88-91, 93-96, 98-101 *)
Definition Exp_SO3 (w : V3) : res M3 := Gamma_SO3 w 0.
Definition LeftJacobian_SO3 (w : V3) : res M3 := Gamma_SO3 w 1.
Definition RightJacobian_SO3 (w : V3) : res M3 := Gamma_SO3 (vneg w) 1.

(** src/math/lie_group.cpp:103-130 [Exp_SEK3]; [v] is a column vector.  [v.head(3)]
    asserts for fewer than three entries. *)
Definition Exp_SEK3 (v : mat) : res mat :=
  let K := ((nr v - 3) / 3)%nat in
  let* w := cgetV3 v 0 0 in
  let X := meye (3 + K) in
  let theta := vnorm w in
  let '(Rm, Jl) :=
    if Rlt_dec theta TOLERANCE then (mid, mid)
    else
      let A := skew w in
      let theta2 := theta * theta in
      let stheta := sin theta in
      let ctheta := cos theta in
      let oneMinusCosTheta2 := (1 - ctheta) / theta2 in
      let A2 := A *m A in
      (mid +m (stheta / theta) *ms A +m oneMinusCosTheta2 *ms A2,
       mid +m oneMinusCosTheta2 *ms A +m ((theta - stheta) / (theta2 * theta)) *ms A2) in
  let* X := cput X 0 0 (ofM3 Rm) in
  foldM (fun X i =>
    let* s := cgetV3 v (3 + 3 * i) 0 in
    cput X 0 (3 + i) (ofV3 (Jl *v s))) X (seq 0 K).

(** src/math/lie_group.cpp:132-143 [Adjoint_SEK3].  For fewer than 3 columns
    [Zero(3+3K,...)] or the block read asserts. *)
Definition Adjoint_SEK3 (X : mat) : res mat :=
  let* _ := check (3 <=? nc X)%nat EigenAssert in
  let K := (nc X - 3)%nat in
  let Adj := mO (3 + 3 * K) (3 + 3 * K) in
  let* Rm := cgetM3 X 0 0 in
  let* Adj := cput Adj 0 0 (ofM3 Rm) in
  foldM (fun Adj i =>
    let* Adj := cput Adj (3 + 3 * i) (3 + 3 * i) (ofM3 Rm) in
    let* x := cgetV3 X 0 (3 + i) in
    cput Adj (3 + 3 * i) 0 (ofM3 (skew x *m Rm))) Adj (seq 0 K).
