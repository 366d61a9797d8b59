(** Outcomes of the modelled C++ functions.

    The C++ code has no error values of its own for these situations: they are
    undefined behaviour, a failed Eigen assertion, an uncaught exception, or a
    NaN/inf that would silently poison the estimate.  The model makes each of
    them a distinct outcome. *)
From Coq Require Import List.
Import ListNotations.

Inductive err : Type :=
| EigenAssert     (** Eigen index / dimension assertion (block out of range, size mismatch) *)
| NullDeref       (** dereference of a null shared_ptr *)
| EmptyQueue      (** front()/pop() of an empty std::queue *)
| IntOverflow     (** signed overflow *)
| AssertFail      (** a failing assert() of the code itself *)
| Throw           (** an uncaught C++ exception *)
| DivZero         (** division by zero the code does not guard (inf / NaN) *)
| SingularInverse (** inverse() of a singular matrix (inf / NaN) *)
| BadRead         (** read of an uninitialised variable *)
| Spin.           (** busy-wait loop that the given schedule does not release *)

Inductive res (A : Type) : Type :=
| Ok (a : A)
| Fail (e : err).
Arguments Ok {A} a.
Arguments Fail {A} e.

Definition bind {A B} (x : res A) (f : A -> res B) : res B :=
  match x with Ok a => f a | Fail e => Fail e end.

Declare Scope res_scope.
Delimit Scope res_scope with res.
Notation "'let*' x ':=' a 'in' b" := (bind a (fun x => b))
  (at level 200, x pattern, a at level 100, b at level 200) : res_scope.
Notation "'let*' ' p ':=' a 'in' b" := (bind a (fun p => b))
  (at level 200, p pattern, a at level 100, b at level 200, only parsing) : res_scope.
Global Open Scope res_scope.

(** [check b e]: proceed only if the run-time condition [b] holds. *)
Definition check (b : bool) (e : err) : res unit := if b then Ok tt else Fail e.

Definition of_opt {A} (o : option A) (e : err) : res A :=
  match o with Some a => Ok a | None => Fail e end.

Lemma bind_ok {A B} (a : A) (f : A -> res B) : bind (Ok a) f = f a.
Proof. reflexivity. Qed.

Lemma bind_inv {A B} (x : res A) (f : A -> res B) b :
  bind x f = Ok b -> exists a, x = Ok a /\ f a = Ok b.
Proof. destruct x as [a|e]; simpl; intros H; [eauto | discriminate]. Qed.

Lemma check_ok b e : check b e = Ok tt <-> b = true.
Proof. destruct b; simpl; split; congruence. Qed.

Definition is_ok {A} (x : res A) : Prop := exists a, x = Ok a.

(** Left-to-right iteration of a failing step over a list. *)
Fixpoint foldM {A S} (f : S -> A -> res S) (s : S) (l : list A) : res S :=
  match l with
  | [] => Ok s
  | a :: l' => let* s' := f s a in foldM f s' l'
  end.

Lemma foldM_app {A S} (f : S -> A -> res S) l1 l2 s :
  foldM f s (l1 ++ l2) = bind (foldM f s l1) (fun s' => foldM f s' l2).
Proof.
  revert s; induction l1 as [|a l1 IH]; intros s; simpl; [reflexivity|].
  destruct (f s a) as [s'|e]; simpl; auto.
Qed.
