(** Specification of the landmark bookkeeping: an abstract store of labelled
    3-vectors and 3x3 covariance blocks, independent of columns and heaps. *)
From Coq Require Import Reals ZArith List Bool Arith Lia.
From Verif Require Import Res Vec3 Mat.
Import ListNotations.
Local Open Scope R_scope.

(** M' is M without rows and columns i .. i+m-1. *)
Definition rc_deleted (i m : nat) (M M' : mat) : Prop :=
  nr M = (nr M' + m)%nat /\ nc M = (nc M' + m)%nat /\
  forall r c, (r < nr M')%nat -> (c < nc M')%nat ->
    ent M' r c = ent M (if (r <? i)%nat then r else (r + m)%nat) (if (c <? i)%nat then c else (c + m)%nat).

(** Labels of the 3-blocks of the error state, in the documented order:
    rotation, velocity, position, landmarks by age, gyro bias, accelerometer bias. *)
Notation lid := nat (only parsing).
Inductive lab := Rot | Vel | Pos | Lm (p : lid) | Bg | Ba.

Fixpoint age (p : lid) (ids : list lid) : nat :=
  match ids with [] => O | q :: r => if Nat.eqb p q then O else S (age p r) end.
Definition block_of (ids : list lid) (l : lab) : nat :=
  match l with
  | Rot => 0 | Vel => 1 | Pos => 2
  | Lm p => 3 + age p ids
  | Bg => 3 + length ids | Ba => 4 + length ids
  end%nat.
Definition live (ids : list lid) (l : lab) : Prop := match l with Lm p => In p ids | _ => True end.

(** The abstract store. *)
Record store := mkStore {
  ids : list lid;              (** live landmarks, oldest first *)
  next : lid;                  (** next id to be handed out *)
  val : lid -> V3;             (** landmark position *)
  cov : lab -> lab -> M3;      (** covariance blocks *)
  noise : lid -> M3 }.         (** process noise given at creation *)

(** Operations of a history.  Between adds and deletes the filter may
    overwrite the whole mean and covariance (propagation, correction). *)
Inductive sop :=
| SAdd (v : V3) (P_aug : mat) (noise : M3)
| SDel (p : lid)
| SSetX (X : mat)
| SSetP (P : mat).

Definition square (n : nat) (A : mat) : Prop := nr A = n /\ nc A = n.
Definition dim_err (l : list lid) : nat := (15 + 3 * length l)%nat.

Definition valid (m : store) (o : sop) : Prop :=
  match o with
  | SAdd _ P _ => square (dim_err (ids m) + 3) P
  | SDel p => In p (ids m)
  | SSetX X => square (5 + length (ids m)) X
  | SSetP P => square (dim_err (ids m)) P
  end.

Definition blocks (l : list lid) (P : mat) (a b : lab) : M3 :=
  getM3 P (3 * block_of l a)%nat (3 * block_of l b)%nat.

Definition spec_step (m : store) (o : sop) : store :=
  match o with
  | SAdd v P N =>
      let l := ids m ++ [next m] in
      mkStore l (S (next m))
        (fun q => if Nat.eqb q (next m) then v else val m q)
        (blocks l P)
        (fun q => if Nat.eqb q (next m) then N else noise m q)
  | SDel p => mkStore (remove Nat.eq_dec p (ids m)) (next m) (val m) (cov m) (noise m)
  | SSetX X => mkStore (ids m) (next m) (fun p => getV3 X 0 (5 + age p (ids m))%nat) (cov m) (noise m)
  | SSetP P => mkStore (ids m) (next m) (val m) (blocks (ids m) P) (noise m)
  end.

Definition spec_init : store := mkStore [] O (fun _ => vzero) (blocks [] (meye 15)) (fun _ => mzero).

Fixpoint valid_history (m : store) (os : list sop) : Prop :=
  match os with [] => True | o :: r => valid m o /\ valid_history (spec_step m o) r end.
Definition spec_run (os : list sop) : store := fold_left spec_step os spec_init.
