(** Model of src/math/se_k_3.cpp (class SEK3). *)
From Coq Require Import Reals ZArith List Bool Lia.
From Verif Require Import Res Vec3 Mat.
Local Open Scope R_scope.

(** include/drift/math/se_k_3.h:184-186 private members; [kK] is the int [K_]. *)
Record sek3 := mkSEK3 { kX : mat; kK : Z }.

(** src/math/se_k_3.cpp:22 default constructor with the in-class initialisers
    [K_ = 5], [X_ = Identity(K_, K_)] *)
Definition SEK3_default : sek3 := mkSEK3 (meye 5) 5.

(** src/math/se_k_3.cpp:24 ([K_] keeps its in-class value 5) *)
Definition SEK3_ofX (X : mat) : sek3 := mkSEK3 X 5.

(** src/math/se_k_3.cpp:26-29.  The dynamic arguments are given with the
    sizes the block assignment requires (3x3, 3x1). *)
Definition SEK3_Rp (Rm : M3) (p : V3) : res sek3 :=
  let* X := cput (meye 5) 0 0 (ofM3 Rm) in
  let* X := cput X 0 3 (ofV3 p) in
  Ok (mkSEK3 X 5).

(** src/math/se_k_3.cpp:31-36 *)
Definition SEK3_Rpv (Rm : M3) (p v : V3) : res sek3 :=
  let* X := cput (meye 5) 0 0 (ofM3 Rm) in
  let* X := cput X 0 3 (ofV3 p) in
  let* X := cput X 0 4 (ofV3 v) in
  Ok (mkSEK3 X 5).

(** src/math/se_k_3.cpp:39-44 *)
Definition SEK3_get_X (s : sek3) : mat := kX s.
Definition SEK3_get_R (s : sek3) : res M3 := cgetM3 (kX s) 0 0.
Definition SEK3_get_p (s : sek3) : res V3 := cgetV3 (kX s) 0 3.
Definition SEK3_get_v (s : sek3) : res V3 := cgetV3 (kX s) 0 4.
Definition SEK3_get_K (s : sek3) : Z := kK s.
Definition SEK3_get_dim (s : sek3) : nat := nr (kX s).

(** src/math/se_k_3.cpp:47-51 *)
Definition SEK3_set_X (s : sek3) (X : mat) : sek3 := mkSEK3 X (kK s).
Definition SEK3_set_R (s : sek3) (Rm : M3) : res sek3 :=
  let* X := cput (kX s) 0 0 (ofM3 Rm) in Ok (mkSEK3 X (kK s)).
Definition SEK3_set_p (s : sek3) (p : V3) : res sek3 :=
  let* X := cput (kX s) 0 3 (ofV3 p) in Ok (mkSEK3 X (kK s)).
Definition SEK3_set_v (s : sek3) (v : V3) : res sek3 :=
  let* X := cput (kX s) 0 4 (ofV3 v) in Ok (mkSEK3 X (kK s)).
Definition SEK3_set_K (s : sek3) (K : Z) : sek3 := mkSEK3 (kX s) K.

(** src/math/se_k_3.cpp:54-61 [operator*] *)
Definition SEK3_mul (a b : sek3) : res sek3 :=
  let Y := SEK3_default in
  let* XX := cmul (SEK3_get_X a) (SEK3_get_X b) in
  Ok (SEK3_set_K (SEK3_set_X Y XX) (SEK3_get_K a)).

(** src/math/se_k_3.cpp:64-71 [inverse]: starts from the default 5x5 object. *)
Definition SEK3_inverse (s : sek3) : res sek3 :=
  let Y := SEK3_default in
  let* Rm := SEK3_get_R s in
  let* Y := SEK3_set_R Y (mtr Rm) in
  let* p := SEK3_get_p s in
  let* Y := SEK3_set_p Y (mneg (mtr Rm) *v p) in
  let* v := SEK3_get_v s in
  let* Y := SEK3_set_v Y (mneg (mtr Rm) *v v) in
  Ok (SEK3_set_K Y (SEK3_get_K s)).
