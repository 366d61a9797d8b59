(** Model of src/state/robot_state.cpp (class RobotState). *)
From Coq Require Import Reals ZArith List Bool Lia.
From Verif Require Import Res Vec3 Mat SEK3.
Import ListNotations.
Local Open Scope R_scope.

(** ** The ids.  [std::shared_ptr<int>] is an address in an explicit heap of
    ints ([heap_new] = make_shared); copies of a pointer are equal addresses.
    Reference counts are not modelled: nothing in the code observes them. *)
Notation ptr := nat (only parsing).
Definition heap := list Z.
Definition heap_new (h : heap) (z : Z) : heap * ptr := (h ++ [z], length h).
Definition heap_get (h : heap) (p : option ptr) : res Z :=
  match p with
  | None => Fail NullDeref
  | Some a => of_opt (nth_error h a) BadRead
  end.
Fixpoint upd {A} (l : list A) (i : nat) (x : A) : list A :=
  match l, i with
  | [], _ => []
  | _ :: l', O => x :: l'
  | a :: l', S i' => a :: upd l' i' x
  end.
Definition heap_set (h : heap) (p : option ptr) (z : Z) : res heap :=
  match p with
  | None => Fail NullDeref
  | Some a => let* _ := check (a <? length h)%nat BadRead in Ok (upd h a z)
  end.

(** include/drift/state/robot_state.h:24-28 *)
Inductive state_kind := WorldCentric | BodyCentric.

(** include/drift/state/robot_state.h:629-646.  [t_], [t_prop_] and
    [body_ang_vel_] have no initialiser: [None] until first set. *)
Record rstate := mkRS {
  stype : state_kind;
  sX : mat;
  sTheta : mat;
  sP : mat;
  scmap : list (option ptr);
  st : option R;
  stprop : option R;
  sQc : mat;
  sbav : option V3;
  sen : bool;
  sslip : Z }.

(** ** Eigen resizing *)

(** [conservativeResizeLike(B)]: common entries are kept, the others come from B. *)
Definition resize_like (A B : mat) : mat :=
  mk (nr B) (nc B) (fun i j => if ((i <? nr A) && (j <? nc A))%nat then ent A i j else ent B i j).
(** [conservativeResize(n, m)]: entries outside the old matrix are
    indeterminate; they are 0 here, and every caller that grows a matrix
    overwrites them (add_aug_bias, copy_diag). *)
Definition cresize (A : mat) (n m : nat) : mat := resize_like A (mO n m).

(** ** Constructors: src/state/robot_state.cpp:20-83 *)
Definition dimX (s : rstate) : nat := nc (sX s).          (* :190 *)
Definition dimTheta (s : rstate) : nat := nr (sTheta s).  (* :191 *)
Definition dimP (s : rstate) : nat := nc (sP s).          (* :192 *)
Definition dimQc (s : rstate) : nat := nc (sQc s).        (* :193 *)

(** src/state/robot_state.cpp:47-54, 76-83 *)
Definition RS_XTP (X Theta P : mat) : rstate :=
  mkRS WorldCentric X Theta P (repeat None (nc X)) None None (mO (nc P) (nc P)) None false 0.
(** src/state/robot_state.cpp:37-45, 66-74 ; a negative size asserts *)
Definition RS_XT (X Theta : mat) : res rstate :=
  let* d := idx (3 * Z.of_nat (nc X) + Z.of_nat (nr Theta) - 6) in
  Ok (RS_XTP X Theta (meye d)).
(** src/state/robot_state.cpp:27-35 *)
Definition RS_X (X : mat) : res rstate := RS_XT X (mO 6 1).
(** src/state/robot_state.cpp:20-25 *)
Definition RS_default : rstate :=
  mkRS WorldCentric (meye 5) (mO 6 1) (meye 15) (repeat None 5) None None (mO 15 15) None false 0.
(** src/state/robot_state.cpp:56-64 *)
Definition RS_SEK3 (K : sek3) : res rstate :=
  let X := SEK3_get_X K in
  let* d := idx (3 * (Z.of_nat (nc X) - 3)) in
  RS_XT X (mO d 1).

(** ** Field update helpers (C++ member assignment) *)
Definition set_X (s : rstate) (X : mat) : rstate :=            (* robot_state.cpp:262 *)
  mkRS (stype s) X (sTheta s) (sP s) (scmap s) (st s) (stprop s) (sQc s) (sbav s) (sen s) (sslip s).
Definition set_theta (s : rstate) (T : mat) : rstate :=        (* robot_state.cpp:263 *)
  mkRS (stype s) (sX s) T (sP s) (scmap s) (st s) (stprop s) (sQc s) (sbav s) (sen s) (sslip s).
Definition set_P (s : rstate) (P : mat) : rstate :=            (* robot_state.cpp:264 *)
  mkRS (stype s) (sX s) (sTheta s) P (scmap s) (st s) (stprop s) (sQc s) (sbav s) (sen s) (sslip s).
Definition set_Qc (s : rstate) (Q : mat) : rstate :=           (* robot_state.cpp:265-267 *)
  mkRS (stype s) (sX s) (sTheta s) (sP s) (scmap s) (st s) (stprop s) Q (sbav s) (sen s) (sslip s).
Definition set_cmap (s : rstate) (m : list (option ptr)) : rstate :=
  mkRS (stype s) (sX s) (sTheta s) (sP s) m (st s) (stprop s) (sQc s) (sbav s) (sen s) (sslip s).
Definition set_time (s : rstate) (t : R) : rstate :=           (* robot_state.cpp:321 *)
  mkRS (stype s) (sX s) (sTheta s) (sP s) (scmap s) (Some t) (stprop s) (sQc s) (sbav s) (sen s) (sslip s).
Definition set_propagate_time (s : rstate) (t : R) : rstate := (* robot_state.cpp:323 *)
  mkRS (stype s) (sX s) (sTheta s) (sP s) (scmap s) (st s) (Some t) (sQc s) (sbav s) (sen s) (sslip s).
Definition set_body_angular_velocity (s : rstate) (w : V3) : rstate := (* robot_state.cpp:170-172 *)
  mkRS (stype s) (sX s) (sTheta s) (sP s) (scmap s) (st s) (stprop s) (sQc s) (Some w) (sen s) (sslip s).
Definition set_enable_imu_bias_update (s : rstate) (b : bool) : rstate := (* robot_state.cpp:408-410 *)
  mkRS (stype s) (sX s) (sTheta s) (sP s) (scmap s) (st s) (stprop s) (sQc s) (sbav s) b (sslip s).
Definition set_slip_flag (s : rstate) (f : Z) : rstate :=      (* robot_state.cpp:427 *)
  mkRS (stype s) (sX s) (sTheta s) (sP s) (scmap s) (st s) (stprop s) (sQc s) (sbav s) (sen s) f.

(** ** Getters: src/state/robot_state.cpp:86-135 *)
Definition get_rotation (s : rstate) : res M3 := cgetM3 (sX s) 0 0.
Definition get_velocity (s : rstate) : res V3 := cgetV3 (sX s) 0 3.
Definition get_position (s : rstate) : res V3 := cgetV3 (sX s) 0 4.
Definition get_vector (s : rstate) (i : nat) : res V3 := cgetV3 (sX s) 0 i.
Definition get_gyroscope_bias (s : rstate) : res V3 := cgetV3 (sTheta s) 0 0.
Definition get_accelerometer_bias (s : rstate) : res V3 := cgetV3 (sTheta s) 3 0.
Definition get_rotation_covariance (s : rstate) : res M3 := cgetM3 (sP s) 0 0.
Definition get_velocity_covariance (s : rstate) : res M3 := cgetM3 (sP s) 3 3.
Definition get_position_covariance (s : rstate) : res M3 := cgetM3 (sP s) 6 6.
Definition get_gyroscope_bias_covariance (s : rstate) : res M3 := cgetM3 (sP s) 9 9.
Definition get_accelerometer_bias_covariance (s : rstate) : res M3 := cgetM3 (sP s) 12 12.
Definition get_time (s : rstate) : res R := of_opt (st s) BadRead.
Definition get_propagate_time (s : rstate) : res R := of_opt (stprop s) BadRead.
Definition get_body_angular_velocity (s : rstate) : res V3 := of_opt (sbav s) BadRead.

(** src/state/robot_state.cpp:377-386 [get_Xinv] *)
Definition get_Xinv (s : rstate) : res mat :=
  let n := dimX s in
  let Xinv := meye n in
  let* Rm := cgetM3 (sX s) 0 0 in
  let RT := mtr Rm in
  let* Xinv := cput Xinv 0 0 (ofM3 RT) in
  foldM (fun Xinv i =>
    let* x := cgetV3 (sX s) 0 i in
    cput Xinv 0 i (ofV3 (mneg RT *v x))) Xinv (seq 3 (n - 3)).

(** src/state/robot_state.cpp:197-259 *)
Definition get_world_X (s : rstate) : res mat :=
  match stype s with WorldCentric => Ok (sX s) | BodyCentric => get_Xinv s end.
Definition get_world_rotation (s : rstate) : res M3 :=
  let* Rm := get_rotation s in
  match stype s with WorldCentric => Ok Rm | BodyCentric => Ok (mtr Rm) end.
Definition get_world_velocity (s : rstate) : res V3 :=
  let* v := get_velocity s in
  match stype s with
  | WorldCentric => Ok v
  | BodyCentric => let* Rm := get_rotation s in Ok (mneg (mtr Rm) *v v) end.
Definition get_world_position (s : rstate) : res V3 :=
  let* p := get_position s in
  match stype s with
  | WorldCentric => Ok p
  | BodyCentric => let* Rm := get_rotation s in Ok (mneg (mtr Rm) *v p) end.
Definition get_body_X (s : rstate) : res mat :=
  match stype s with BodyCentric => Ok (sX s) | WorldCentric => get_Xinv s end.
Definition get_body_rotation (s : rstate) : res M3 :=
  let* Rm := get_rotation s in
  match stype s with BodyCentric => Ok Rm | WorldCentric => Ok (mtr Rm) end.
Definition get_body_velocity (s : rstate) : res V3 :=
  let* v := get_velocity s in
  match stype s with
  | BodyCentric => Ok v
  | WorldCentric => let* Rm := get_rotation s in Ok (mtr Rm *v v) end.
Definition get_body_position (s : rstate) : res V3 :=
  let* p := get_position s in
  match stype s with
  | BodyCentric => Ok p
  | WorldCentric => let* Rm := get_rotation s in Ok (mtr Rm *v p) end.

(** ** Setters: src/state/robot_state.cpp:269-284, 306-320 *)
Definition set_rotation (s : rstate) (Rm : M3) : res rstate :=
  let* X := cput (sX s) 0 0 (ofM3 Rm) in Ok (set_X s X).
Definition set_velocity (s : rstate) (v : V3) : res rstate :=
  let* X := cput (sX s) 0 3 (ofV3 v) in Ok (set_X s X).
Definition set_position (s : rstate) (p : V3) : res rstate :=
  let* X := cput (sX s) 0 4 (ofV3 p) in Ok (set_X s X).
Definition set_gyroscope_bias (s : rstate) (b : V3) : res rstate :=
  let* T := cput (sTheta s) 0 0 (ofV3 b) in Ok (set_theta s T).
Definition set_accelerometer_bias (s : rstate) (b : V3) : res rstate :=
  let* T := cput (sTheta s) 3 0 (ofV3 b) in Ok (set_theta s T).
Definition set_cov3 (s : rstate) (i : nat) (c : M3) : res rstate :=
  let* P := cput (sP s) i i (ofM3 c) in Ok (set_P s P).
Definition set_rotation_covariance s c := set_cov3 s 0 c.
Definition set_velocity_covariance s c := set_cov3 s 3 c.
Definition set_position_covariance s c := set_cov3 s 6 c.
Definition set_gyroscope_bias_covariance s c := set_cov3 s 9 c.
Definition set_accelerometer_bias_covariance s c := set_cov3 s 12 c.

(** ** Augmented states *)

(** src/state/robot_state.cpp:137-164 [add_aug_state].  The corner expressions
    assert when larger than the matrix. *)
Definition add_aug_state (s : rstate) (aug : V3) (P_aug : mat) (noise_cov : M3)
    (col_id_ptr : option ptr) : res (rstate * nat) :=
  let d := dimX s in
  let X := resize_like (sX s) (meye (d + 1)) in
  let* X := cput X 0 d (ofV3 aug) in
  let s := set_X s X in
  let s := set_P s P_aug in
  let dq := dimQc s in
  let dt := dimTheta s in
  let dx := dimX s in
  let Q := sQc s in
  let Qa := mO (dq + 3) (dq + 3) in
  let* _ := check ((dt <=? nr Q) && (dt <=? nc Q))%nat EigenAssert in
  let* c1 := cblock Q 0 0 dx dx in
  let* Qa := cput Qa 0 0 c1 in
  let* c2 := cblock Q (nr Q - dt) 0 dt dx in
  let* Qa := cput Qa (dq + 3 - dt) 0 c2 in
  let* c3 := cblock Q 0 (nc Q - dt) dx dt in
  let* Qa := cput Qa 0 (dq + 3 - dt) c3 in
  let* c4 := cblock Q (nr Q - dt) (nc Q - dt) dt dt in
  let* Qa := cput Qa (dq + 3 - dt) (dq + 3 - dt) c4 in
  let* Qa := cput Qa (dq - dt) (dq - dt) (ofM3 noise_cov) in
  let s := set_Qc s Qa in
  let s := set_cmap s (scmap s ++ [col_id_ptr]) in
  Ok (s, (dimX s - 1)%nat).

(** src/state/robot_state.cpp:166-168, 186-188 *)
Definition set_aug_state (s : rstate) (i : nat) (aug : V3) : res rstate :=
  let* X := cput (sX s) 0 i (ofV3 aug) in Ok (set_X s X).
Definition get_aug_state (s : rstate) (i : nat) : res V3 := cgetV3 (sX s) 0 i.

(** src/state/robot_state.cpp:398-406 [RemoveRowAndColumn].  [dimX - index -
    move_dim] is unsigned: when it would be negative it is huge and the block
    asserts. *)
Definition RemoveRowAndColumn (M : mat) (index move_dim : nat) : res mat :=
  let d := nc M in
  let* _ := check (index + move_dim <=? d)%nat EigenAssert in
  let n := (d - index - move_dim)%nat in
  let* _ := check (n <=? nr M)%nat EigenAssert in
  let* b := cblock M (nr M - n) 0 n d in
  let* M := cput M index 0 b in
  let* b := cblock M 0 (nc M - n) (nr M) n in
  let* _ := check (nr M =? d)%nat EigenAssert in
  let* M := cput M 0 index b in
  Ok (cresize M (d - move_dim) (d - move_dim)).

(** 3 + 3 * (matrix_idx - 3) = 3 * matrix_idx - 6; negative asserts *)
Definition cov_index (i : nat) : res nat := idx (3 + 3 * (Z.of_nat i - 3)).

(** src/state/robot_state.cpp:325-329, 331-335, 337-341, 343-346 *)
Definition add_aug_cov (s : rstate) (c : M3) : res rstate :=
  let d := dimP s in
  let P := resize_like (sP s) (mO (d + 3) (d + 3)) in
  let* P := cput P d d (ofM3 c) in
  Ok (set_P s P).
Definition del_aug_cov (s : rstate) (i : nat) : res rstate :=
  let* k := cov_index i in
  let* P := RemoveRowAndColumn (sP s) k 3 in Ok (set_P s P).
Definition del_aug_noise_cov (s : rstate) (i : nat) : res rstate :=
  let* k := cov_index i in
  let* Q := RemoveRowAndColumn (sQc s) k 3 in Ok (set_Qc s Q).
Definition get_aug_cov (s : rstate) (i : nat) : res M3 :=
  let* k := cov_index i in cgetM3 (sP s) k k.

(** src/state/robot_state.cpp:174-184 [del_aug_state]; an index outside the
    vector is undefined behaviour ([BadRead]), [*nullptr -= 1] is [NullDeref]. *)
Definition del_aug_state (h : heap) (s : rstate) (matrix_idx : nat) : res (heap * rstate) :=
  let d := dimX s in
  let* '(h, m) :=
    foldM (fun hm i =>
      let '(h, m) := hm in
      let* q := of_opt (nth_error m (i + 1)) BadRead in
      let* _ := check (i <? length m)%nat BadRead in
      let m := upd m i q in
      let* z := heap_get h q in
      let* h := heap_set h q (z - 1) in
      Ok (h, m)) (h, scmap s) (seq matrix_idx (d - 1 - matrix_idx)) in
  let* _ := check (1 <=? length m)%nat BadRead in
  let s := set_cmap s (removelast m) in
  let* X := RemoveRowAndColumn (sX s) matrix_idx 1 in
  let s := set_X s X in
  let* s := del_aug_cov s matrix_idx in
  let* s := del_aug_noise_cov s matrix_idx in
  Ok (h, s).

(** ** Augmented biases: src/state/robot_state.cpp:287-304 *)
Definition add_aug_bias (s : rstate) (b : V3) : res rstate :=
  let d := nr (sTheta s) in
  let T := cresize (sTheta s) (d + 3) 1 in
  let* T := cput T d 0 (ofV3 b) in Ok (set_theta s T).
Definition del_aug_bias (s : rstate) (matrix_idx : nat) : res rstate :=
  let T := sTheta s in
  let* start := idx (Z.of_nat matrix_idx - 5 + 6) in
  let* n := idx (Z.of_nat (nr T) - Z.of_nat start - 3) in
  let* b := cblock T (start + 3) 0 n 1 in
  let* T := cput T start 0 b in
  Ok (set_theta s (cresize T (nr T - 3) 1)).
Definition get_aug_bias (s : rstate) (matrix_idx : nat) : res V3 :=
  let* k := idx (Z.of_nat (nr (sTheta s)) - 3) in
  cgetV3 (sTheta s) k 0.

(** ** Block-diagonal copies: src/state/robot_state.cpp:348-360, 362-375 *)
Definition copy_diag_step (A B : mat) : res mat :=
  let d := nc A in
  let si := nr B in
  let B := cresize B (si + d) (si + d) in
  let* B := cput B si 0 (mO d si) in
  let* B := cput B 0 si (mO si d) in
  let* _ := check (nr A =? d)%nat EigenAssert in
  cput B si si A.
Fixpoint copy_diag (A : mat) (n : nat) (B : mat) : res mat :=
  match n with O => Ok B | S n => let* B := copy_diag_step A B in copy_diag A n B end.
Definition copy_diag_X (s : rstate) (n : nat) (B : mat) : res mat := copy_diag (sX s) n B.
Definition copy_diag_Xinv (s : rstate) (n : nat) (B : mat) : res mat :=
  let* Xi := get_Xinv s in
  let* _ := check (nc Xi =? dimX s)%nat EigenAssert in copy_diag Xi n B.

(** src/state/robot_state.cpp:416-425 [clear]: [t_], [t_prop_],
    [enable_imu_bias_update_], [slip_flag_] keep their values. *)
Definition RS_clear (s : rstate) : rstate :=
  mkRS (stype s) (meye 5) (mO 6 1) (meye 15) (repeat None 5) (st s) (stprop s) (mO 15 15)
       (Some vzero) (sen s) (sslip s).
