(** Fixed-size 3-vectors and 3x3 matrices over the reals: the model of Eigen's
    Vector3d / Matrix3d.  Pure linear algebra, no project-specific content. *)
From Coq Require Import Reals Lra Lia.
Local Open Scope R_scope.

Record V3 := mkV { v0 : R; v1 : R; v2 : R }.
Record M3 := mkM {
  m00 : R; m01 : R; m02 : R;
  m10 : R; m11 : R; m12 : R;
  m20 : R; m21 : R; m22 : R }.

Definition vzero := mkV 0 0 0.
Definition vadd u v := mkV (v0 u + v0 v) (v1 u + v1 v) (v2 u + v2 v).
Definition vneg u := mkV (- v0 u) (- v1 u) (- v2 u).
Definition vsub u v := mkV (v0 u - v0 v) (v1 u - v1 v) (v2 u - v2 v).
Definition vscal a u := mkV (a * v0 u) (a * v1 u) (a * v2 u).
Definition vdot u v := v0 u * v0 v + v1 u * v1 v + v2 u * v2 v.
Definition cross u v :=
  mkV (v1 u * v2 v - v2 u * v1 v) (v2 u * v0 v - v0 u * v2 v) (v0 u * v1 v - v1 u * v0 v).
Definition vnorm u := sqrt (vdot u u).

Definition mzero := mkM 0 0 0 0 0 0 0 0 0.
Definition mid := mkM 1 0 0 0 1 0 0 0 1.
Definition madd A B := mkM
  (m00 A + m00 B) (m01 A + m01 B) (m02 A + m02 B)
  (m10 A + m10 B) (m11 A + m11 B) (m12 A + m12 B)
  (m20 A + m20 B) (m21 A + m21 B) (m22 A + m22 B).
Definition mneg A := mkM
  (- m00 A) (- m01 A) (- m02 A) (- m10 A) (- m11 A) (- m12 A) (- m20 A) (- m21 A) (- m22 A).
Definition msub A B := mkM
  (m00 A - m00 B) (m01 A - m01 B) (m02 A - m02 B)
  (m10 A - m10 B) (m11 A - m11 B) (m12 A - m12 B)
  (m20 A - m20 B) (m21 A - m21 B) (m22 A - m22 B).
Definition mscal a A := mkM
  (a * m00 A) (a * m01 A) (a * m02 A)
  (a * m10 A) (a * m11 A) (a * m12 A)
  (a * m20 A) (a * m21 A) (a * m22 A).
Definition mmul A B := mkM
  (m00 A * m00 B + m01 A * m10 B + m02 A * m20 B)
  (m00 A * m01 B + m01 A * m11 B + m02 A * m21 B)
  (m00 A * m02 B + m01 A * m12 B + m02 A * m22 B)
  (m10 A * m00 B + m11 A * m10 B + m12 A * m20 B)
  (m10 A * m01 B + m11 A * m11 B + m12 A * m21 B)
  (m10 A * m02 B + m11 A * m12 B + m12 A * m22 B)
  (m20 A * m00 B + m21 A * m10 B + m22 A * m20 B)
  (m20 A * m01 B + m21 A * m11 B + m22 A * m21 B)
  (m20 A * m02 B + m21 A * m12 B + m22 A * m22 B).
Definition mtr A := mkM
  (m00 A) (m10 A) (m20 A) (m01 A) (m11 A) (m21 A) (m02 A) (m12 A) (m22 A).
Definition mv A u := mkV
  (m00 A * v0 u + m01 A * v1 u + m02 A * v2 u)
  (m10 A * v0 u + m11 A * v1 u + m12 A * v2 u)
  (m20 A * v0 u + m21 A * v1 u + m22 A * v2 u).
Definition det3 A :=
  m00 A * (m11 A * m22 A - m12 A * m21 A)
  - m01 A * (m10 A * m22 A - m12 A * m20 A)
  + m02 A * (m10 A * m21 A - m11 A * m20 A).
Definition mtrace A := m00 A + m11 A + m22 A.

Fixpoint mpow (A : M3) (n : nat) : M3 :=
  match n with O => mid | S n => mmul (mpow A n) A end.

(** Access by index, Eigen's v(i), M(i,j) for in-range constants. *)
Definition vget (u : V3) (i : nat) : R :=
  match i with 0 => v0 u | 1 => v1 u | 2 => v2 u | _ => 0%R end%nat.
Definition mget (A : M3) (i j : nat) : R :=
  match i, j with
  | 0, 0 => m00 A | 0, 1 => m01 A | 0, 2 => m02 A
  | 1, 0 => m10 A | 1, 1 => m11 A | 1, 2 => m12 A
  | 2, 0 => m20 A | 2, 1 => m21 A | 2, 2 => m22 A
  | _, _ => 0%R
  end%nat.
Definition vmk (f : nat -> R) : V3 := mkV (f 0%nat) (f 1%nat) (f 2%nat).
Definition mmk (f : nat -> nat -> R) : M3 := mkM
  (f 0 0)%nat (f 0 1)%nat (f 0 2)%nat (f 1 0)%nat (f 1 1)%nat (f 1 2)%nat (f 2 0)%nat (f 2 1)%nat (f 2 2)%nat.

Declare Scope v3_scope.
Delimit Scope v3_scope with v3.
Infix "+v" := vadd (at level 50, left associativity) : v3_scope.
Infix "-v" := vsub (at level 50, left associativity) : v3_scope.
Infix "*s" := vscal (at level 40, left associativity) : v3_scope.
Infix "+m" := madd (at level 50, left associativity) : v3_scope.
Infix "-m" := msub (at level 50, left associativity) : v3_scope.
Infix "*m" := mmul (at level 40, left associativity) : v3_scope.
Infix "*ms" := mscal (at level 40, left associativity) : v3_scope.
Infix "*v" := mv (at level 40, left associativity) : v3_scope.
Global Open Scope v3_scope.

Ltac d3 := repeat match goal with
  | [ x : V3 |- _ ] => destruct x
  | [ x : M3 |- _ ] => destruct x
  end.
Ltac u3 :=
  unfold vdot, det3, mtrace;
  cbn [vzero vadd vneg vsub vscal vdot cross mzero mid madd mneg msub mscal mmul
       mtr mv det3 mtrace vmk mmk
       vget mget v0 v1 v2 m00 m01 m02 m10 m11 m12 m20 m21 m22].
Lemma V3_eq u v : v0 u = v0 v -> v1 u = v1 v -> v2 u = v2 v -> u = v.
Proof. destruct u, v; simpl; intros; subst; reflexivity. Qed.
Lemma M3_eq A B :
  m00 A = m00 B -> m01 A = m01 B -> m02 A = m02 B ->
  m10 A = m10 B -> m11 A = m11 B -> m12 A = m12 B ->
  m20 A = m20 B -> m21 A = m21 B -> m22 A = m22 B -> A = B.
Proof. destruct A, B; simpl; intros; subst; reflexivity. Qed.

Ltac ring3 := intros;
  lazymatch goal with
  | |- @eq V3 _ _ => apply V3_eq; u3; ring
  | |- @eq M3 _ _ => apply M3_eq; u3; ring
  | _ => u3; ring
  end.

Lemma V3_ext u v : (forall i, (i < 3)%nat -> vget u i = vget v i) -> u = v.
Proof.
  intros H; apply V3_eq; [apply (H 0%nat)|apply (H 1%nat)|apply (H 2%nat)]; lia.
Qed.
Lemma M3_ext A B : (forall i j, (i < 3)%nat -> (j < 3)%nat -> mget A i j = mget B i j) -> A = B.
Proof.
  intros H; apply M3_eq;
  [apply (H 0 0)%nat|apply (H 0 1)%nat|apply (H 0 2)%nat|apply (H 1 0)%nat|apply (H 1 1)%nat
  |apply (H 1 2)%nat|apply (H 2 0)%nat|apply (H 2 1)%nat|apply (H 2 2)%nat]; lia.
Qed.
Lemma vmk_get u : vmk (vget u) = u. Proof. destruct u; reflexivity. Qed.
Lemma mmk_get A : mmk (mget A) = A. Proof. destruct A; reflexivity. Qed.
Lemma vget_mk f i : (i < 3)%nat -> vget (vmk f) i = f i.
Proof. intros H; do 3 (destruct i; [reflexivity|]); lia. Qed.
Lemma mget_mk f i j : (i < 3)%nat -> (j < 3)%nat -> mget (mmk f) i j = f i j.
Proof.
  intros H K; do 3 (destruct i; [do 3 (destruct j; [reflexivity|]); lia|]); lia.
Qed.

Section Laws.
Variables (A B C : M3) (u v w : V3) (a b : R).
Lemma mmul_assoc : A *m (B *m C) = A *m B *m C. Proof. ring3. Qed.
Lemma mmul_id_l : mid *m A = A. Proof. ring3. Qed.
Lemma mmul_id_r : A *m mid = A. Proof. ring3. Qed.
Lemma mmul_zero_l : mzero *m A = mzero. Proof. ring3. Qed.
Lemma mmul_zero_r : A *m mzero = mzero. Proof. ring3. Qed.
Lemma mmul_add_l : (A +m B) *m C = A *m C +m B *m C. Proof. ring3. Qed.
Lemma mmul_add_r : A *m (B +m C) = A *m B +m A *m C. Proof. ring3. Qed.
Lemma mmul_scal_l : (a *ms A) *m B = a *ms (A *m B). Proof. ring3. Qed.
Lemma mmul_scal_r : A *m (a *ms B) = a *ms (A *m B). Proof. ring3. Qed.
Lemma mscal_add : a *ms (A +m B) = a *ms A +m a *ms B. Proof. ring3. Qed.
Lemma mscal_scal : a *ms (b *ms A) = (a * b) *ms A. Proof. ring3. Qed.
Lemma mscal_1 : 1 *ms A = A. Proof. ring3. Qed.
Lemma mscal_0 : 0 *ms A = mzero. Proof. ring3. Qed.
Lemma mscal_zero : a *ms mzero = mzero. Proof. ring3. Qed.
Lemma madd_comm : A +m B = B +m A. Proof. ring3. Qed.
Lemma madd_assoc : A +m (B +m C) = A +m B +m C. Proof. ring3. Qed.
Lemma madd_zero_l : mzero +m A = A. Proof. ring3. Qed.
Lemma madd_zero_r : A +m mzero = A. Proof. ring3. Qed.
Lemma msub_diag : A -m A = mzero. Proof. ring3. Qed.
Lemma mtr_mul : mtr (A *m B) = mtr B *m mtr A. Proof. ring3. Qed.
Lemma mtr_add : mtr (A +m B) = mtr A +m mtr B. Proof. ring3. Qed.
Lemma mtr_scal : mtr (a *ms A) = a *ms mtr A. Proof. ring3. Qed.
Lemma mtr_tr : mtr (mtr A) = A. Proof. ring3. Qed.
Lemma mtr_id : mtr mid = mid. Proof. ring3. Qed.
Lemma mtr_zero : mtr mzero = mzero. Proof. ring3. Qed.
Lemma det_mul : det3 (A *m B) = det3 A * det3 B. Proof. ring3. Qed.
Lemma det_tr : det3 (mtr A) = det3 A. Proof. ring3. Qed.
Lemma det_id : det3 mid = 1. Proof. ring3. Qed.
Lemma mv_mul : (A *m B) *v u = A *v (B *v u). Proof. ring3. Qed.
Lemma mv_id : mid *v u = u. Proof. ring3. Qed.
Lemma mv_add_r : A *v (u +v v) = A *v u +v A *v v. Proof. ring3. Qed.
Lemma mv_sub_r : A *v (u -v v) = A *v u -v A *v v. Proof. ring3. Qed.
Lemma mv_neg_r : A *v (vneg u) = vneg (A *v u). Proof. ring3. Qed.
Lemma mv_scal_r : A *v (a *s u) = a *s (A *v u). Proof. ring3. Qed.
Lemma mv_add_l : (A +m B) *v u = A *v u +v B *v u. Proof. ring3. Qed.
Lemma mv_scal_l : (a *ms A) *v u = a *s (A *v u). Proof. ring3. Qed.
Lemma mv_zero_r : A *v vzero = vzero. Proof. ring3. Qed.
Lemma mv_zero_l : mzero *v u = vzero. Proof. ring3. Qed.
Lemma vadd_comm : u +v v = v +v u. Proof. ring3. Qed.
Lemma vadd_assoc : u +v (v +v w) = u +v v +v w. Proof. ring3. Qed.
Lemma vadd_zero_l : vzero +v u = u. Proof. ring3. Qed.
Lemma vadd_zero_r : u +v vzero = u. Proof. ring3. Qed.
Lemma vsub_diag : u -v u = vzero. Proof. ring3. Qed.
Lemma vsub_add : u -v v = u +v vneg v. Proof. ring3. Qed.
Lemma vneg_neg : vneg (vneg u) = u. Proof. ring3. Qed.
Lemma vneg_zero : vneg vzero = vzero. Proof. ring3. Qed.
Lemma vscal_zero : a *s vzero = vzero. Proof. ring3. Qed.
Lemma vscal_scal : a *s (b *s u) = (a * b) *s u. Proof. ring3. Qed.
Lemma vscal_add : a *s (u +v v) = a *s u +v a *s v. Proof. ring3. Qed.
Lemma vscal_1 : 1 *s u = u. Proof. ring3. Qed.
Lemma vscal_0 : 0 *s u = vzero. Proof. ring3. Qed.
Lemma vdot_mv : vdot (A *v u) v = vdot u (mtr A *v v). Proof. ring3. Qed.
End Laws.

Lemma vdot_nonneg u : 0 <= vdot u u.
Proof. destruct u; u3; nra. Qed.
Lemma vnorm_nonneg u : 0 <= vnorm u. Proof. apply sqrt_pos. Qed.
Lemma vnorm_sq u : vnorm u * vnorm u = vdot u u.
Proof. apply sqrt_sqrt, vdot_nonneg. Qed.
Lemma vnorm_neg u : vnorm (vneg u) = vnorm u.
Proof. unfold vnorm; f_equal; ring3. Qed.
