(** Specification vocabulary for C46: the column ids of a published state. *)
From Coq Require Import Reals ZArith List Bool Arith.
From Verif Require Import Res Vec3 Mat RobotState LegCorr Estimator SpecEst.
Import ListNotations.

(** the id stored for each contact column (columns 5, 6, ... of the state matrix) of s reads,
    through the shared integers h, as the number of that column *)
Definition ids_right (h : heap) (s : rstate) : Prop :=
  forall j, (5 <= j < nc (sX s))%nat -> exists p, nth_error (scmap s) j = Some (Some p) /\ nth_error h p = Some (Z.of_nat j).
(** leg id is tracked by the estimator's legged correction *)
Definition leg_tracked (e : est) (id : nat) : Prop := exists c, In (CLeg c) (e_corrs e) /\ lc_map c id <> None.
(** along os no tracked leg loses contact (a clear, which starts a new run, may happen) *)
Fixpoint no_contact_lost (e : est) (os : list op) : Prop :=
  match os with
  | [] => True
  | o :: os => forall e', est_step e o = Ok e' ->
      (o = OClear \/ forall id, leg_tracked e id -> leg_tracked e' id) /\ no_contact_lost e' os
  end.
