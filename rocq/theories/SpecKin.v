(** Specification vocabulary for the leg kinematics (C33-C35): a leg is a serial chain of
    three revolute joints. *)
From Coq Require Import Reals List.
From Verif Require Import Res Vec3 Mat Spec SpecFilter SpecProp Kinematics.
Local Open Scope R_scope.

(** rotations about the x and y axes *)
Definition rotx (a : R) : M3 := mkM 1 0 0 0 (cos a) (- sin a) 0 (sin a) (cos a).
Definition roty (a : R) : M3 := mkM (cos a) 0 (sin a) 0 1 0 (- sin a) 0 (cos a).
(** hip position in the body frame, sideways offset of the thigh, lengths of thigh and
    shank (metres), index of the first of the leg's three joints *)
Record geom := mkG { g_hip : V3; g_off : R; g_thigh : R; g_shank : R; g_joint : nat }.
(** the Mini Cheetah: legs FR, FL, HR, HL have joints 0-2, 3-5, 6-8, 9-11 *)
Definition leg_geom (l : leg) : geom :=
  let front := 190 / 1000 in let side := 49 / 1000 in let off := 62 / 1000 in
  let th := 209 / 1000 in let sh := 2075 / 10000 in
  match l with
  | FR => mkG (mkV front (- side) 0) (- off) th sh 0
  | FL => mkG (mkV front side 0) off th sh 3
  | HR => mkG (mkV (- front) (- side) 0) (- off) th sh 6
  | HL => mkG (mkV (- front) side 0) off th sh 9
  end.
(** abduction about x, then hip and knee about -y; all links point down at angle zero *)
Definition foot_rot (g : geom) (q : nat -> R) : M3 :=
  rotx (q (g_joint g)) *m roty (- q (1 + g_joint g)%nat) *m roty (- q (2 + g_joint g)%nat).
Definition foot_pos (g : geom) (q : nat -> R) : V3 :=
  g_hip g +v rotx (q (g_joint g)) *v (mkV 0 (g_off g) 0 +v
    roty (- q (1 + g_joint g)%nat) *v (mkV 0 0 (- g_thigh g) +v roty (- q (2 + g_joint g)%nat) *v mkV 0 0 (- g_shank g))).

(** a joint trajectory q with velocity dq at time t *)
Definition moves (q : R -> nat -> R) (t : R) (dq : nat -> R) : Prop := forall k, (k < 12)%nat -> derivable_pt_lim (fun s => q s k) t (dq k).
(** a matrix valued function's entries *)
Definition entd (f : R -> mat) (t : R) (D : mat) : Prop :=
  nr D = nr (f t) /\ nc D = nc (f t) /\ forall i j, (i < nr D)%nat -> (j < nc D)%nat -> derivable_pt_lim (fun s => ent (f s) i j) t (ent D i j).
(** a 12-vector as a column *)
Definition col12 (dq : nat -> R) : mat := mk 12 1 (fun i _ => dq i).
(** the 4x4 matrix of a twist (angular part first) *)
Definition twist4 (x : mat) : mat :=
  mk 4 4 (fun i j => if (Nat.ltb i 3 && Nat.ltb j 3)%bool then mget (crossm (getV3 x 0 0)) i j
                     else if (Nat.ltb i 3 && Nat.eqb j 3)%bool then ent x (3 + i) 0 else 0).
(** an object as the constructors leave it: 3x4 positions, 3x12 Jacobian *)
Record kin_shaped (m : mck) : Prop := { ks_p1 : nr (k_pos m) = 3%nat; ks_p2 : nc (k_pos m) = 4%nat; ks_j1 : nr (k_jac m) = 3%nat; ks_j2 : nc (k_jac m) = 12%nat }.
(** the first leg in contact *)
Definition first_contact (cs : list bool) (l : leg) : Prop :=
  nth_error cs (leg_id l) = Some true /\ forall l', (leg_id l' < leg_id l)%nat -> nth_error cs (leg_id l') = Some false.
