(** Model of the Mini Cheetah leg kinematics: the generated functions of
    src/kinematics/robots/mini_cheetah/*.cpp (their formulas are in KinGen.v, translated by
    tools/gen_kin.py), src/kinematics/mini_cheetah_kinematics.cpp and
    src/measurement/legged_kinematics.cpp. *)
From Coq Require Import Reals ZArith List Bool Arith Lia.
From Verif Require Import Res Vec3 Mat LieGroup LegCorr KinGen.
Import ListNotations.
Local Open Scope R_scope.

(** A fixed-size, uninitialised, column-major matrix p_output1 filled by the assignments
    [l] (linear coefficient access).  A write outside asserts; a cell that is never written
    is indeterminate. *)
Definition written (l : list (nat * R)) (k : nat) : bool := existsb (fun w => Nat.eqb (fst w) k) l.
Definition cell (l : list (nat * R)) (k : nat) : R := fold_left (fun acc w => if Nat.eqb (fst w) k then snd w else acc) l 0.
Definition kin_fun (r c : nat) (l : list (nat * R)) : res mat :=
  if forallb (fun w => Nat.ltb (fst w) (r * c)) l then
    if forallb (written l) (seq 0 (r * c)) then Ok (mk r c (fun i j => cell l (j * r + i))) else Fail BadRead
  else Fail EigenAssert.

(** mini_cheetah_kinematics.h:29-31 [enum Leg] *)
Inductive leg := FR | FL | HR | HL.
Definition leg_id (l : leg) : nat := match l with FR => 0 | FL => 1 | HR => 2 | HL => 3 end%nat.
Definition all_legs : list leg := [FR; FL; HR; HL].

(** the forty functions, one family per name prefix *)
Definition p_Body_to (l : leg) (q : nat -> R) : res mat := kin_fun 3 1
  (match l with FR => out_p_Body_to_FrontRightFoot | FL => out_p_Body_to_FrontLeftFoot | HR => out_p_Body_to_HindRightFoot | HL => out_p_Body_to_HindLeftFoot end q).
Definition R_Body_to (l : leg) (q : nat -> R) : res mat := kin_fun 3 3
  (match l with FR => out_R_Body_to_FrontRightFoot | FL => out_R_Body_to_FrontLeftFoot | HR => out_R_Body_to_HindRightFoot | HL => out_R_Body_to_HindLeftFoot end q).
Definition H_Body_to (l : leg) (q : nat -> R) : res mat := kin_fun 4 4
  (match l with FR => out_H_Body_to_FrontRightFoot | FL => out_H_Body_to_FrontLeftFoot | HR => out_H_Body_to_HindRightFoot | HL => out_H_Body_to_HindLeftFoot end q).
Definition Jp_Body_to (l : leg) (q : nat -> R) : res mat := kin_fun 3 12
  (match l with FR => out_Jp_Body_to_FrontRightFoot | FL => out_Jp_Body_to_FrontLeftFoot | HR => out_Jp_Body_to_HindRightFoot | HL => out_Jp_Body_to_HindLeftFoot end q).
Definition Js_Body_to (l : leg) (q : nat -> R) : res mat := kin_fun 6 12
  (match l with FR => out_Js_Body_to_FrontRightFoot | FL => out_Js_Body_to_FrontLeftFoot | HR => out_Js_Body_to_HindRightFoot | HL => out_Js_Body_to_HindLeftFoot end q).
Definition Jb_Body_to (l : leg) (q : nat -> R) : res mat := kin_fun 6 12
  (match l with FR => out_Jb_Body_to_FrontRightFoot | FL => out_Jb_Body_to_FrontLeftFoot | HR => out_Jb_Body_to_HindRightFoot | HL => out_Jb_Body_to_HindLeftFoot end q).
Definition Jws_Body_to (l : leg) (q : nat -> R) : res mat := kin_fun 3 12
  (match l with FR => out_Jws_Body_to_FrontRightFoot | FL => out_Jws_Body_to_FrontLeftFoot | HR => out_Jws_Body_to_HindRightFoot | HL => out_Jws_Body_to_HindLeftFoot end q).
Definition Jvs_Body_to (l : leg) (q : nat -> R) : res mat := kin_fun 3 12
  (match l with FR => out_Jvs_Body_to_FrontRightFoot | FL => out_Jvs_Body_to_FrontLeftFoot | HR => out_Jvs_Body_to_HindRightFoot | HL => out_Jvs_Body_to_HindLeftFoot end q).
Definition Jwb_Body_to (l : leg) (q : nat -> R) : res mat := kin_fun 3 12
  (match l with FR => out_Jwb_Body_to_FrontRightFoot | FL => out_Jwb_Body_to_FrontLeftFoot | HR => out_Jwb_Body_to_HindRightFoot | HL => out_Jwb_Body_to_HindLeftFoot end q).
Definition Jvb_Body_to (l : leg) (q : nat -> R) : res mat := kin_fun 3 12
  (match l with FR => out_Jvb_Body_to_FrontRightFoot | FL => out_Jvb_Body_to_FrontLeftFoot | HR => out_Jvb_Body_to_HindRightFoot | HL => out_Jvb_Body_to_HindLeftFoot end q).

(** legged_kinematics.h:131-148: dynamic vectors as lists *)
Record mck := mkMCK { k_pos : mat; k_jac : mat; k_contacts : list bool; k_enc : list R; k_denc : list R }.
(** mini_cheetah_kinematics.cpp:24-29 *)
Definition MCK_default : mck := mkMCK (mO 3 4) (mO 3 12) (repeat false 4) (repeat 0 12) [].
(** mini_cheetah_kinematics.cpp:31-38, legged_kinematics.cpp:20-24 *)
Definition MCK_make (enc denc : list R) (contacts : list bool) : mck := mkMCK (mO 3 4) (mO 3 12) contacts enc denc.
(** legged_kinematics.cpp:26-39: the three setters *)
Definition set_contact (m : mck) (c : list bool) : mck := mkMCK (k_pos m) (k_jac m) c (k_enc m) (k_denc m).
Definition set_joint_state (m : mck) (e : list R) : mck := mkMCK (k_pos m) (k_jac m) (k_contacts m) e (k_denc m).
Definition set_joint_state_velocity (m : mck) (d : list R) : mck := mkMCK (k_pos m) (k_jac m) (k_contacts m) (k_enc m) d.
(** conversion of a dynamic vector to Eigen::Matrix<double, 12, 1> *)
Definition vec12 (l : list R) : res (nat -> R) := if Nat.eqb (length l) 12 then Ok (fun k => nth k l 0) else Fail EigenAssert.
(** contacts_[leg], legged_kinematics.cpp:47-49 *)
Definition get_contact (m : mck) (i : nat) : res bool := of_opt (nth_error (k_contacts m) i) EigenAssert.

(** mini_cheetah_kinematics.cpp:40-53 [ComputeKinematics]: first all positions, then all Jacobian blocks *)
Definition ComputeKinematics (m : mck) : res mck :=
  let* q := vec12 (k_enc m) in
  let* P := foldM (fun P l => let* p := p_Body_to l q in cput P 0 (leg_id l) p) (k_pos m) all_legs in
  let* J := foldM (fun J l => let* j := Jp_Body_to l q in let* b := cblock j 0 (leg_id l * 3) 3 3 in cput J 0 (leg_id l * 3) b) (k_jac m) all_legs in
  Ok (mkMCK P J (k_contacts m) (k_enc m) (k_denc m)).
(** legged_kinematics.cpp:41-45 [get_J]: integer division of the sizes *)
Definition get_J (m : mck) (i : nat) : res mat :=
  match length (k_contacts m) with
  | O => Fail DivZero
  | n => let dim := Nat.div (length (k_enc m)) n in cblock (k_jac m) 0 (i * dim) 3 dim
  end.
(** legged_kinematics.cpp:55-58 [get_kin_pos] *)
Definition get_kin_pos (m : mck) (i : nat) : res V3 := cgetV3 (k_pos m) 0 i.
(** mini_cheetah_kinematics.cpp:55-81 [get_init_velocity] *)
Definition stance_velocity (m : mck) (l : leg) (w : V3) : res V3 :=
  let* q := vec12 (k_enc m) in
  let* p := p_Body_to l q in
  let* J := Jp_Body_to l q in
  let* Jdq := cmul (mopp J) (mk (length (k_denc m)) 1 (fun i _ => nth i (k_denc m) 0)) in
  let* a := cgetV3 Jdq 0 0 in
  let* f := cgetV3 p 0 0 in
  Ok (a -v (skew w) *v f).
Fixpoint first_stance (m : mck) (w : V3) (legs : list leg) : res V3 :=
  match legs with
  | [] => Ok vzero
  | l :: ls => let* c := get_contact m (leg_id l) in if c then stance_velocity m l w else first_stance m w ls
  end.
Definition get_init_velocity (m : mck) (w : V3) : res V3 := first_stance m w all_legs.

(** The view of legged_kinematics_correction.cpp:99-110 and 281 (LegCorr.v's abstract
    measurement): num_legs = 4 and the getters after ComputeKinematics; get_J is converted to
    a Matrix3d.  Fails if any of these calls fails. *)
Definition leg_view (t : R) (m : mck) : res lmeas :=
  let* m' := ComputeKinematics m in
  let* os := foldM (fun acc l =>
    let* c := get_contact m' (leg_id l) in
    let* p := get_kin_pos m' (leg_id l) in
    let* J := get_J m' (leg_id l) in
    let* J := if (Nat.eqb (nr J) 3 && Nat.eqb (nc J) 3)%bool then Ok (getM3 J 0 0) else Fail EigenAssert in
    Ok (acc ++ [mkLO c p J])) [] all_legs in
  Ok (mkLM t os (fun w => match get_init_velocity m w with Ok v => v | Fail _ => vzero end)).
