(** Dynamically sized real matrices (Eigen's MatrixXd / VectorXd) with range
    checks.  A matrix carries its dimensions and an entry function that is 0
    outside them, so that equality of matrices is Leibniz equality.  No
    project-specific content. *)
From Coq Require Import Reals Lra Lia Arith List Bool ZArith.
From Coq Require Import FunctionalExtensionality Eqdep_dec.
From Verif Require Import Res Vec3.
Import ListNotations.
Local Open Scope R_scope.

(** ** Finite sums *)
Fixpoint sum (n : nat) (f : nat -> R) : R :=
  match n with O => 0 | S n => sum n f + f n end.

Lemma sum_ext n f g : (forall i, (i < n)%nat -> f i = g i) -> sum n f = sum n g.
Proof. induction n as [|n IH]; simpl; intros H; [reflexivity|]. rewrite IH, H; auto. Qed.
Lemma sum_0 n : sum n (fun _ => 0) = 0.
Proof. induction n as [|n IH]; simpl; [reflexivity|]. rewrite IH; ring. Qed.
Lemma sum_zero n f : (forall i, (i < n)%nat -> f i = 0) -> sum n f = 0.
Proof. intros H; rewrite (sum_ext n f (fun _ => 0)) by exact H; apply sum_0. Qed.
Lemma sum_plus n f g : sum n (fun i => f i + g i) = sum n f + sum n g.
Proof. induction n as [|n IH]; simpl; [ring|]. rewrite IH; ring. Qed.
Lemma sum_minus n f g : sum n (fun i => f i - g i) = sum n f - sum n g.
Proof. induction n as [|n IH]; simpl; [ring|]. rewrite IH; ring. Qed.
Lemma sum_opp n f : sum n (fun i => - f i) = - sum n f.
Proof. induction n as [|n IH]; simpl; [ring|]. rewrite IH; ring. Qed.
Lemma sum_scal_l n a f : sum n (fun i => a * f i) = a * sum n f.
Proof. induction n as [|n IH]; simpl; [ring|]. rewrite IH; ring. Qed.
Lemma sum_scal_r n a f : sum n (fun i => f i * a) = sum n f * a.
Proof. induction n as [|n IH]; simpl; [ring|]. rewrite IH; ring. Qed.
Lemma sum_swap n m f : sum n (fun i => sum m (fun j => f i j)) = sum m (fun j => sum n (fun i => f i j)).
Proof.
  induction n as [|n IH]; simpl; [symmetry; apply sum_0|].
  rewrite IH, <- sum_plus; reflexivity.
Qed.
Lemma sum_delta n k f : (k < n)%nat -> sum n (fun i => if Nat.eqb i k then f i else 0) = f k.
Proof.
  induction n as [|n IH]; intros H; [lia|]. simpl.
  destruct (Nat.eqb_spec n k) as [->|Hne].
  - rewrite (sum_ext k _ (fun _ => 0)), sum_0; [ring|].
    intros i Hi. destruct (Nat.eqb_spec i k); [lia|reflexivity].
  - rewrite IH by lia. ring.
Qed.
Lemma sum_delta' n k f : (forall i, (i < n)%nat -> i <> k -> f i = 0) -> (k < n)%nat -> sum n f = f k.
Proof.
  intros H Hk. rewrite <- (sum_delta n k f Hk). apply sum_ext. intros i Hi.
  destruct (Nat.eqb_spec i k); auto.
Qed.
Lemma sum_nonneg n f : (forall i, (i < n)%nat -> 0 <= f i) -> 0 <= sum n f.
Proof.
  induction n as [|n IH]; simpl; intros H; [lra|].
  pose proof (H n ltac:(lia)). assert (0 <= sum n f) by (apply IH; intros; apply H; lia). lra.
Qed.
Lemma sum_le n f g : (forall i, (i < n)%nat -> f i <= g i) -> sum n f <= sum n g.
Proof.
  induction n as [|n IH]; simpl; intros H; [lra|].
  pose proof (H n ltac:(lia)). assert (sum n f <= sum n g) by (apply IH; intros; apply H; lia). lra.
Qed.
Lemma sum_app n m f : sum (n + m) f = sum n f + sum m (fun i => f (n + i)%nat).
Proof.
  induction m as [|m IH]; simpl; [rewrite Nat.add_0_r; ring|].
  rewrite Nat.add_succ_r; simpl. rewrite IH; ring.
Qed.
Lemma sum_S_l n f : sum (S n) f = f O + sum n (fun i => f (S i)).
Proof. change (S n) with (1 + n)%nat. rewrite sum_app; simpl; ring. Qed.
Lemma sum_mono_range n m f : (n <= m)%nat -> (forall i, (n <= i < m)%nat -> f i = 0) -> sum m f = sum n f.
Proof.
  intros Hnm H. replace m with (n + (m - n))%nat by lia. rewrite sum_app.
  rewrite (sum_zero (m - n)); [ring|]. intros i Hi; apply H; lia.
Qed.

(** ** Matrices *)
Definition inr (n m i j : nat) : bool := ((i <? n) && (j <? m))%nat.

Record mat := mkMat {
  nr : nat; nc : nat;
  ent : nat -> nat -> R;
  ent_out : forall i j, inr nr nc i j = false -> ent i j = 0 }.

Lemma inr_true n m i j : inr n m i j = true <-> (i < n)%nat /\ (j < m)%nat.
Proof. unfold inr. rewrite andb_true_iff, !Nat.ltb_lt. tauto. Qed.
Lemma inr_false n m i j : inr n m i j = false <-> (n <= i)%nat \/ (m <= j)%nat.
Proof. unfold inr. rewrite andb_false_iff, !Nat.ltb_ge. tauto. Qed.

Definition mk (n m : nat) (f : nat -> nat -> R) : mat.
Proof.
  refine (mkMat n m (fun i j => if inr n m i j then f i j else 0) _).
  intros i j H; rewrite H; reflexivity.
Defined.

Lemma mat_ext A B :
  nr A = nr B -> nc A = nc B ->
  (forall i j, (i < nr A)%nat -> (j < nc A)%nat -> ent A i j = ent B i j) -> A = B.
Proof.
  destruct A as [n m f Hf], B as [n' m' g Hg]; simpl; intros -> -> H.
  assert (f = g) as E.
  { extensionality i; extensionality j.
    destruct (inr n' m' i j) eqn:Hr.
    - apply inr_true in Hr; apply H; tauto.
    - rewrite Hf, Hg by exact Hr; reflexivity. }
  subst g. f_equal. extensionality i; extensionality j; extensionality h.
  apply UIP_dec, Req_EM_T.
Qed.

Lemma ent_zero A i j : (nr A <= i)%nat \/ (nc A <= j)%nat -> ent A i j = 0.
Proof. intros H; apply ent_out, inr_false, H. Qed.

Lemma nr_mk n m f : nr (mk n m f) = n. Proof. reflexivity. Qed.
Lemma nc_mk n m f : nc (mk n m f) = m. Proof. reflexivity. Qed.
Lemma ent_mk n m f i j : (i < n)%nat -> (j < m)%nat -> ent (mk n m f) i j = f i j.
Proof. intros H K; simpl. assert (inr n m i j = true) as -> by (apply inr_true; auto). reflexivity. Qed.
Lemma ent_mk_if n m f i j : ent (mk n m f) i j = if inr n m i j then f i j else 0.
Proof. reflexivity. Qed.

Definition meye (n : nat) : mat := mk n n (fun i j => if Nat.eqb i j then 1 else 0).
Definition mO (n m : nat) : mat := mk n m (fun _ _ => 0).
Definition mplus (A B : mat) : mat := mk (nr A) (nc A) (fun i j => ent A i j + ent B i j).
Definition mminus (A B : mat) : mat := mk (nr A) (nc A) (fun i j => ent A i j - ent B i j).
Definition mopp (A : mat) : mat := mk (nr A) (nc A) (fun i j => - ent A i j).
Definition mscl (a : R) (A : mat) : mat := mk (nr A) (nc A) (fun i j => a * ent A i j).
Definition mT (A : mat) : mat := mk (nc A) (nr A) (fun i j => ent A j i).
Definition mmult (A B : mat) : mat :=
  mk (nr A) (nc B) (fun i j => sum (nc A) (fun k => ent A i k * ent B k j)).

Declare Scope mat_scope.
Delimit Scope mat_scope with mat.
Infix "*M" := mmult (at level 40, left associativity) : mat_scope.
Infix "+M" := mplus (at level 50, left associativity) : mat_scope.
Infix "-M" := mminus (at level 50, left associativity) : mat_scope.
Infix "*S" := mscl (at level 40, left associativity) : mat_scope.
Global Open Scope mat_scope.

Global Arguments mk : simpl never.
Global Arguments mmult : simpl never.
Global Arguments mplus : simpl never.
Global Arguments mminus : simpl never.
Global Arguments mopp : simpl never.
Global Arguments mscl : simpl never.
Global Arguments mT : simpl never.
Global Arguments meye : simpl never.
Global Arguments mO : simpl never.

Lemma nr_mult A B : nr (A *M B) = nr A. Proof. reflexivity. Qed.
Lemma nc_mult A B : nc (A *M B) = nc B. Proof. reflexivity. Qed.
Lemma nr_plus A B : nr (A +M B) = nr A. Proof. reflexivity. Qed.
Lemma nc_plus A B : nc (A +M B) = nc A. Proof. reflexivity. Qed.
Lemma nr_minus A B : nr (A -M B) = nr A. Proof. reflexivity. Qed.
Lemma nc_minus A B : nc (A -M B) = nc A. Proof. reflexivity. Qed.
Lemma nr_opp A : nr (mopp A) = nr A. Proof. reflexivity. Qed.
Lemma nc_opp A : nc (mopp A) = nc A. Proof. reflexivity. Qed.
Lemma nr_scl a A : nr (a *S A) = nr A. Proof. reflexivity. Qed.
Lemma nc_scl a A : nc (a *S A) = nc A. Proof. reflexivity. Qed.
Lemma nr_T A : nr (mT A) = nc A. Proof. reflexivity. Qed.
Lemma nc_T A : nc (mT A) = nr A. Proof. reflexivity. Qed.
Lemma nr_eye n : nr (meye n) = n. Proof. reflexivity. Qed.
Lemma nc_eye n : nc (meye n) = n. Proof. reflexivity. Qed.
Lemma nr_O n m : nr (mO n m) = n. Proof. reflexivity. Qed.
Lemma nc_O n m : nc (mO n m) = m. Proof. reflexivity. Qed.
Global Hint Rewrite nr_mk nc_mk nr_mult nc_mult nr_plus nc_plus nr_minus nc_minus nr_opp nc_opp
  nr_scl nc_scl nr_T nc_T nr_eye nc_eye nr_O nc_O : mdims.

Ltac mdim := autorewrite with mdims in *; try congruence; try lia.

Lemma ent_mult A B i j : ent (A *M B) i j = sum (nc A) (fun k => ent A i k * ent B k j).
Proof.
  unfold mmult. rewrite ent_mk_if. destruct (inr (nr A) (nc B) i j) eqn:H; [reflexivity|].
  symmetry. apply sum_zero; intros k Hk. apply inr_false in H. destruct H as [H|H].
  - rewrite (ent_zero A) by auto; ring.
  - rewrite (ent_zero B) by auto; ring.
Qed.
Lemma ent_T A i j : ent (mT A) i j = ent A j i.
Proof.
  unfold mT. rewrite ent_mk_if. destruct (inr (nc A) (nr A) i j) eqn:H; [reflexivity|].
  apply inr_false in H. symmetry; apply ent_zero; tauto.
Qed.
Lemma ent_plus A B i j : nr A = nr B -> nc A = nc B -> ent (A +M B) i j = ent A i j + ent B i j.
Proof.
  intros H1 H2. unfold mplus. rewrite ent_mk_if. destruct (inr (nr A) (nc A) i j) eqn:H; [reflexivity|].
  apply inr_false in H. rewrite (ent_zero A), (ent_zero B) by (rewrite <- ?H1, <- ?H2; tauto); ring.
Qed.
Lemma ent_minus A B i j : nr A = nr B -> nc A = nc B -> ent (A -M B) i j = ent A i j - ent B i j.
Proof.
  intros H1 H2. unfold mminus. rewrite ent_mk_if. destruct (inr (nr A) (nc A) i j) eqn:H; [reflexivity|].
  apply inr_false in H. rewrite (ent_zero A), (ent_zero B) by (rewrite <- ?H1, <- ?H2; tauto); ring.
Qed.
Lemma ent_opp A i j : ent (mopp A) i j = - ent A i j.
Proof.
  unfold mopp. rewrite ent_mk_if. destruct (inr (nr A) (nc A) i j) eqn:H; [reflexivity|].
  apply inr_false in H. rewrite (ent_zero A) by tauto; ring.
Qed.
Lemma ent_scl a A i j : ent (a *S A) i j = a * ent A i j.
Proof.
  unfold mscl. rewrite ent_mk_if. destruct (inr (nr A) (nc A) i j) eqn:H; [reflexivity|].
  apply inr_false in H. rewrite (ent_zero A) by tauto; ring.
Qed.
Lemma ent_O n m i j : ent (mO n m) i j = 0.
Proof. unfold mO. rewrite ent_mk_if. destruct (inr n m i j); reflexivity. Qed.
Lemma ent_eye n i j : (i < n)%nat -> (j < n)%nat -> ent (meye n) i j = if Nat.eqb i j then 1 else 0.
Proof. intros; unfold meye; rewrite ent_mk; auto. Qed.

(** ** Algebra *)
Lemma mmult_assoc A B C : A *M (B *M C) = A *M B *M C.
Proof.
  apply mat_ext; try reflexivity. intros i j Hi Hj. rewrite !ent_mult, nc_mult.
  rewrite (sum_ext _ (fun k => ent A i k * ent (B *M C) k j)
             (fun k => sum (nc B) (fun l => ent A i k * ent B k l * ent C l j))).
  2:{ intros k _. rewrite ent_mult, <- sum_scal_l. apply sum_ext; intros; ring. }
  rewrite sum_swap. apply sum_ext; intros l _. rewrite ent_mult, <- sum_scal_r. reflexivity.
Qed.
Lemma mmult_eye_l A n : nr A = n -> meye n *M A = A.
Proof.
  intros <-. apply mat_ext; try reflexivity. intros i j Hi Hj. mdim. rewrite ent_mult, nc_eye.
  rewrite (sum_delta' _ i); auto.
  - rewrite ent_eye, Nat.eqb_refl by auto; ring.
  - intros k Hk Hne. rewrite ent_eye by auto. destruct (Nat.eqb_spec i k); [congruence|ring].
Qed.
Lemma mmult_eye_r A n : nc A = n -> A *M meye n = A.
Proof.
  intros <-. apply mat_ext; try reflexivity. intros i j Hi Hj. mdim. rewrite ent_mult.
  rewrite (sum_delta' _ j); auto.
  - rewrite ent_eye, Nat.eqb_refl by auto; ring.
  - intros k Hk Hne. rewrite ent_eye by auto. destruct (Nat.eqb_spec k j); [congruence|ring].
Qed.
Lemma mmult_plus_l A B C : nr A = nr B -> nc A = nc B -> (A +M B) *M C = A *M C +M B *M C.
Proof.
  intros H1 H2; apply mat_ext; try reflexivity. intros i j Hi Hj.
  rewrite ent_plus, !ent_mult, nc_plus, <- H2, <- sum_plus by mdim.
  apply sum_ext; intros k _. rewrite ent_plus by auto; ring.
Qed.
Lemma mmult_plus_r A B C : nr B = nr C -> nc B = nc C -> A *M (B +M C) = A *M B +M A *M C.
Proof.
  intros H1 H2; apply mat_ext; try reflexivity. intros i j Hi Hj.
  rewrite ent_plus, !ent_mult, <- sum_plus by mdim.
  apply sum_ext; intros k _. rewrite ent_plus by auto; ring.
Qed.
Lemma mmult_minus_l A B C : nr A = nr B -> nc A = nc B -> (A -M B) *M C = A *M C -M B *M C.
Proof.
  intros H1 H2; apply mat_ext; try reflexivity. intros i j Hi Hj.
  rewrite ent_minus, !ent_mult, nc_minus, <- H2, <- sum_minus by mdim.
  apply sum_ext; intros k _. rewrite ent_minus by auto; ring.
Qed.
Lemma mmult_minus_r A B C : nr B = nr C -> nc B = nc C -> A *M (B -M C) = A *M B -M A *M C.
Proof.
  intros H1 H2; apply mat_ext; try reflexivity. intros i j Hi Hj.
  rewrite ent_minus, !ent_mult, <- sum_minus by mdim.
  apply sum_ext; intros k _. rewrite ent_minus by auto; ring.
Qed.
Lemma mmult_scl_l a A B : (a *S A) *M B = a *S (A *M B).
Proof.
  apply mat_ext; try reflexivity. intros i j Hi Hj. rewrite ent_scl, !ent_mult, nc_scl, <- sum_scal_l.
  apply sum_ext; intros; rewrite ent_scl; ring.
Qed.
Lemma mmult_scl_r a A B : A *M (a *S B) = a *S (A *M B).
Proof.
  apply mat_ext; try reflexivity. intros i j Hi Hj. rewrite ent_scl, !ent_mult, <- sum_scal_l.
  apply sum_ext; intros; rewrite ent_scl; ring.
Qed.
Lemma mmult_O_l n m B : mO n m *M B = mO n (nc B).
Proof.
  apply mat_ext; try reflexivity. intros i j Hi Hj. rewrite ent_O, ent_mult.
  apply sum_zero; intros; rewrite ent_O; ring.
Qed.
Lemma mmult_O_r A n m : A *M mO n m = mO (nr A) m.
Proof.
  apply mat_ext; try reflexivity. intros i j Hi Hj. rewrite ent_O, ent_mult.
  apply sum_zero; intros; rewrite ent_O; ring.
Qed.
Lemma mT_T A : mT (mT A) = A.
Proof. apply mat_ext; try reflexivity. intros; rewrite !ent_T; reflexivity. Qed.
Lemma mT_mult A B : nc A = nr B -> mT (A *M B) = mT B *M mT A.
Proof.
  intros H; apply mat_ext; try reflexivity. intros i j Hi Hj.
  rewrite ent_T, !ent_mult, nc_T, <- H. apply sum_ext; intros; rewrite !ent_T; ring.
Qed.
Lemma mT_plus A B : nr A = nr B -> nc A = nc B -> mT (A +M B) = mT A +M mT B.
Proof.
  intros H1 H2; apply mat_ext; try reflexivity. intros i j Hi Hj.
  rewrite ent_T, !ent_plus, !ent_T by mdim; reflexivity.
Qed.
Lemma mT_minus A B : nr A = nr B -> nc A = nc B -> mT (A -M B) = mT A -M mT B.
Proof.
  intros H1 H2; apply mat_ext; try reflexivity. intros i j Hi Hj.
  rewrite ent_T, !ent_minus, !ent_T by mdim; reflexivity.
Qed.
Lemma mT_scl a A : mT (a *S A) = a *S mT A.
Proof. apply mat_ext; try reflexivity. intros; rewrite ent_T, !ent_scl, ent_T; reflexivity. Qed.
Lemma mT_eye n : mT (meye n) = meye n.
Proof.
  apply mat_ext; try reflexivity. intros i j Hi Hj; mdim. rewrite ent_T, !ent_eye by auto.
  rewrite Nat.eqb_sym; reflexivity.
Qed.
Lemma mT_O n m : mT (mO n m) = mO m n.
Proof. apply mat_ext; try reflexivity. intros; rewrite ent_T, !ent_O; reflexivity. Qed.

Ltac ments := repeat first
  [ rewrite ent_plus by mdim | rewrite ent_minus by mdim | rewrite ent_opp | rewrite ent_scl
  | rewrite ent_T | rewrite ent_O ].
(** entry-wise identities of sums of matrices of equal size *)
Ltac mring := apply mat_ext; [mdim | mdim | intros ?i ?j _ _; ments; ring].

Lemma mplus_comm A B : nr A = nr B -> nc A = nc B -> A +M B = B +M A.
Proof. intros; mring. Qed.
Lemma mplus_assoc A B C : nr A = nr B -> nc A = nc B -> nr B = nr C -> nc B = nc C ->
  A +M (B +M C) = A +M B +M C.
Proof. intros; mring. Qed.
Lemma mplus_O_r A n m : nr A = n -> nc A = m -> A +M mO n m = A.
Proof. intros; mring. Qed.
Lemma mplus_O_l A n m : nr A = n -> nc A = m -> mO n m +M A = A.
Proof. intros; mring. Qed.
Lemma mminus_diag A : A -M A = mO (nr A) (nc A).
Proof. mring. Qed.
Lemma mminus_O_r A n m : nr A = n -> nc A = m -> A -M mO n m = A.
Proof. intros; mring. Qed.
Lemma mscl_1 A : 1 *S A = A. Proof. mring. Qed.

(** ** Sub-blocks *)
(** block(i,j,p,q) as a value *)
Definition sub (A : mat) (i j p q : nat) : mat := mk p q (fun a b => ent A (i + a) (j + b)).
(** A with block (i,j) of size of B replaced by B *)
Definition put (A : mat) (i j : nat) (B : mat) : mat :=
  mk (nr A) (nc A) (fun r c =>
    if ((i <=? r) && (r <? i + nr B) && (j <=? c) && (c <? j + nc B))%nat
    then ent B (r - i) (c - j) else ent A r c).
Global Arguments sub : simpl never.
Global Arguments put : simpl never.
Lemma nr_sub A i j p q : nr (sub A i j p q) = p. Proof. reflexivity. Qed.
Lemma nc_sub A i j p q : nc (sub A i j p q) = q. Proof. reflexivity. Qed.
Lemma nr_put A i j B : nr (put A i j B) = nr A. Proof. reflexivity. Qed.
Lemma nc_put A i j B : nc (put A i j B) = nc A. Proof. reflexivity. Qed.
Global Hint Rewrite nr_sub nc_sub nr_put nc_put : mdims.
Lemma ent_sub A i j p q a b : (a < p)%nat -> (b < q)%nat -> ent (sub A i j p q) a b = ent A (i + a) (j + b).
Proof. intros; unfold sub; rewrite ent_mk; auto. Qed.
Definition inwin (i p r : nat) : bool := ((i <=? r) && (r <? i + p))%nat.
Lemma inwin_true i p r : inwin i p r = true <-> (i <= r < i + p)%nat.
Proof. unfold inwin. rewrite andb_true_iff, Nat.leb_le, Nat.ltb_lt; lia. Qed.
Lemma inwin_false i p r : inwin i p r = false <-> (r < i \/ i + p <= r)%nat.
Proof. unfold inwin. rewrite andb_false_iff, Nat.leb_gt, Nat.ltb_ge; lia. Qed.
Lemma ent_put A i j B r c : (i + nr B <= nr A)%nat -> (j + nc B <= nc A)%nat ->
  ent (put A i j B) r c =
    if inwin i (nr B) r && inwin j (nc B) c then ent B (r - i) (c - j) else ent A r c.
Proof.
  intros H1 H2. unfold put, inwin. rewrite ent_mk_if. rewrite !andb_assoc.
  destruct (inr (nr A) (nc A) r c) eqn:H; [reflexivity|].
  apply inr_false in H. rewrite (ent_zero A) by tauto.
  destruct (_ && _)%bool eqn:E; [|reflexivity].
  rewrite !andb_true_iff, !Nat.leb_le, !Nat.ltb_lt in E. lia.
Qed.
Lemma ent_put_in A i j B r c : (i + nr B <= nr A)%nat -> (j + nc B <= nc A)%nat ->
  (i <= r < i + nr B)%nat -> (j <= c < j + nc B)%nat -> ent (put A i j B) r c = ent B (r - i) (c - j).
Proof.
  intros H1 H2 H3 H4. rewrite ent_put by auto.
  apply inwin_true in H3, H4. rewrite H3, H4. reflexivity.
Qed.
Lemma ent_put_out A i j B r c : (i + nr B <= nr A)%nat -> (j + nc B <= nc A)%nat ->
  (r < i \/ i + nr B <= r \/ c < j \/ j + nc B <= c)%nat -> ent (put A i j B) r c = ent A r c.
Proof.
  intros H1 H2 H3. rewrite ent_put by auto.
  destruct (inwin i (nr B) r) eqn:E1; [|reflexivity].
  destruct (inwin j (nc B) c) eqn:E2; [|reflexivity].
  apply inwin_true in E1, E2. lia.
Qed.

(** ** Conversions with fixed-size types *)
Definition ofM3 (M : M3) : mat := mk 3 3 (mget M).
Definition ofV3 (u : V3) : mat := mk 3 1 (fun i _ => vget u i).
Definition getM3 (A : mat) (i j : nat) : M3 := mmk (fun a b => ent A (i + a) (j + b)).
Definition getV3 (A : mat) (i j : nat) : V3 := vmk (fun a => ent A (i + a) j).
Global Arguments ofM3 : simpl never.
Global Arguments ofV3 : simpl never.
Global Arguments getM3 : simpl never.
Global Arguments getV3 : simpl never.
Lemma nr_ofM3 M : nr (ofM3 M) = 3%nat. Proof. reflexivity. Qed.
Lemma nc_ofM3 M : nc (ofM3 M) = 3%nat. Proof. reflexivity. Qed.
Lemma nr_ofV3 M : nr (ofV3 M) = 3%nat. Proof. reflexivity. Qed.
Lemma nc_ofV3 M : nc (ofV3 M) = 1%nat. Proof. reflexivity. Qed.
Global Hint Rewrite nr_ofM3 nc_ofM3 nr_ofV3 nc_ofV3 : mdims.
Lemma ent_ofM3 M i j : (i < 3)%nat -> (j < 3)%nat -> ent (ofM3 M) i j = mget M i j.
Proof. intros; unfold ofM3; rewrite ent_mk; auto. Qed.
Lemma ent_ofV3 u i : (i < 3)%nat -> ent (ofV3 u) i 0 = vget u i.
Proof. intros; unfold ofV3; rewrite ent_mk; auto. Qed.
Lemma mget_getM3 A i j a b : (a < 3)%nat -> (b < 3)%nat -> mget (getM3 A i j) a b = ent A (i + a) (j + b).
Proof. intros; unfold getM3; rewrite mget_mk; auto. Qed.
Lemma vget_getV3 A i j a : (a < 3)%nat -> vget (getV3 A i j) a = ent A (i + a) j.
Proof. intros; unfold getV3; rewrite vget_mk; auto. Qed.
Lemma getM3_ofM3 M : getM3 (ofM3 M) 0 0 = M.
Proof. apply M3_ext; intros; rewrite mget_getM3, ent_ofM3 by lia; f_equal; lia. Qed.
Lemma getV3_ofV3 u : getV3 (ofV3 u) 0 0 = u.
Proof. apply V3_ext; intros; rewrite vget_getV3, ent_ofV3 by lia; f_equal; lia. Qed.
Lemma ofM3_inj M N : ofM3 M = ofM3 N -> M = N.
Proof. intros H. rewrite <- (getM3_ofM3 M), H; apply getM3_ofM3. Qed.

(** ** Checked operations (the model uses these) *)
Definition eqn (a b : nat) : bool := Nat.eqb a b.
Definition cmul (A B : mat) : res mat :=
  if Nat.eqb (nc A) (nr B) then Ok (A *M B) else Fail EigenAssert.
Definition cadd (A B : mat) : res mat :=
  if Nat.eqb (nr A) (nr B) && Nat.eqb (nc A) (nc B) then Ok (A +M B) else Fail EigenAssert.
Definition csub (A B : mat) : res mat :=
  if Nat.eqb (nr A) (nr B) && Nat.eqb (nc A) (nc B) then Ok (A -M B) else Fail EigenAssert.
Definition cblock (A : mat) (i j p q : nat) : res mat :=
  if ((i + p <=? nr A) && (j + q <=? nc A))%nat then Ok (sub A i j p q) else Fail EigenAssert.
Definition cput (A : mat) (i j : nat) (B : mat) : res mat :=
  if ((i + nr B <=? nr A) && (j + nc B <=? nc A))%nat then Ok (put A i j B) else Fail EigenAssert.
Definition cgetM3 (A : mat) (i j : nat) : res M3 :=
  if ((i + 3 <=? nr A) && (j + 3 <=? nc A))%nat then Ok (getM3 A i j) else Fail EigenAssert.
Definition cgetV3 (A : mat) (i j : nat) : res V3 :=
  if ((i + 3 <=? nr A) && (j + 1 <=? nc A))%nat then Ok (getV3 A i j) else Fail EigenAssert.
(** an [int] index used as an Eigen index: negative values assert *)
Definition idx (z : Z) : res nat := if (z <? 0)%Z then Fail EigenAssert else Ok (Z.to_nat z).

Lemma cmul_ok A B : nc A = nr B -> cmul A B = Ok (A *M B).
Proof. intros H; unfold cmul; rewrite H, Nat.eqb_refl; reflexivity. Qed.
Lemma cadd_ok A B : nr A = nr B -> nc A = nc B -> cadd A B = Ok (A +M B).
Proof. intros H K; unfold cadd; rewrite H, K, !Nat.eqb_refl; reflexivity. Qed.
Lemma csub_ok A B : nr A = nr B -> nc A = nc B -> csub A B = Ok (A -M B).
Proof. intros H K; unfold csub; rewrite H, K, !Nat.eqb_refl; reflexivity. Qed.
Lemma cblock_ok A i j p q : (i + p <= nr A)%nat -> (j + q <= nc A)%nat ->
  cblock A i j p q = Ok (sub A i j p q).
Proof. intros H K; unfold cblock. apply Nat.leb_le in H, K. rewrite H, K; reflexivity. Qed.
Lemma cput_ok A i j B : (i + nr B <= nr A)%nat -> (j + nc B <= nc A)%nat ->
  cput A i j B = Ok (put A i j B).
Proof. intros H K; unfold cput. apply Nat.leb_le in H, K. rewrite H, K; reflexivity. Qed.
Lemma cgetM3_ok A i j : (i + 3 <= nr A)%nat -> (j + 3 <= nc A)%nat -> cgetM3 A i j = Ok (getM3 A i j).
Proof. intros H K; unfold cgetM3. apply Nat.leb_le in H, K. rewrite H, K; reflexivity. Qed.
Lemma cgetV3_ok A i j : (i + 3 <= nr A)%nat -> (j + 1 <= nc A)%nat -> cgetV3 A i j = Ok (getV3 A i j).
Proof. intros H K; unfold cgetV3. apply Nat.leb_le in H, K. rewrite H, K; reflexivity. Qed.
Lemma idx_ok z : (0 <= z)%Z -> idx z = Ok (Z.to_nat z).
Proof. intros H; unfold idx. destruct (Z.ltb_spec z 0); [lia|reflexivity]. Qed.

(** ** Block products: dimensions that are multiples of 3 *)
Fixpoint msum (n : nat) (f : nat -> M3) : M3 :=
  match n with O => mzero | S n => (msum n f +m f n)%v3 end.
Fixpoint vsum (n : nat) (f : nat -> V3) : V3 :=
  match n with O => vzero | S n => (vsum n f +v f n)%v3 end.

Lemma sum_3 n f : sum (3 * n) f = sum n (fun k => f (3 * k)%nat + f (3 * k + 1)%nat + f (3 * k + 2)%nat).
Proof.
  induction n as [|n IH]; [reflexivity|].
  replace (3 * S n)%nat with (3 * n + 3)%nat by lia. rewrite sum_app, IH.
  cbn [sum]. rewrite Nat.add_0_r. ring.
Qed.
Lemma mget_add A B i j : mget (A +m B) i j = mget A i j + mget B i j.
Proof.
  destruct i as [|[|[|i]]]; try (destruct j as [|[|[|j]]]; simpl; ring); simpl; ring.
Qed.
Lemma vget_add A B i : vget (A +v B) i = vget A i + vget B i.
Proof. destruct i as [|[|[|i]]]; simpl; ring. Qed.
Lemma mget_zero i j : mget mzero i j = 0.
Proof. destruct i as [|[|[|i]]]; try (destruct j as [|[|[|j]]]; reflexivity); reflexivity. Qed.
Lemma mget_msum n f i j : mget (msum n f) i j = sum n (fun k => mget (f k) i j).
Proof. induction n as [|n IH]; simpl; [apply mget_zero|]. rewrite mget_add, IH; reflexivity. Qed.
Lemma vget_vsum n f i : vget (vsum n f) i = sum n (fun k => vget (f k) i).
Proof.
  induction n as [|n IH]; simpl; [destruct i as [|[|[|i]]]; reflexivity|].
  rewrite vget_add, IH; reflexivity.
Qed.
Lemma mget_mul A B i j : (i < 3)%nat -> (j < 3)%nat ->
  mget (A *m B) i j = mget A i 0 * mget B 0 j + mget A i 1 * mget B 1 j + mget A i 2 * mget B 2 j.
Proof.
  intros Hi Hj. destruct i as [|[|[|i]]]; try lia; destruct j as [|[|[|j]]]; try lia; reflexivity.
Qed.
Lemma vget_mv A u i : (i < 3)%nat ->
  vget (A *v u) i = mget A i 0 * vget u 0 + mget A i 1 * vget u 1 + mget A i 2 * vget u 2.
Proof. intros Hi. destruct i as [|[|[|i]]]; try lia; reflexivity. Qed.

(** rows r..r+2, columns c..c+2 of a product whose inner dimension is 3n *)
Lemma getM3_mult A B r c n : nc A = (3 * n)%nat ->
  getM3 (A *M B) r c = msum n (fun k => getM3 A r (3 * k) *m getM3 B (3 * k) c).
Proof.
  intros H. apply M3_ext; intros i j Hi Hj. rewrite mget_getM3, ent_mult, mget_msum, H, sum_3 by auto.
  apply sum_ext; intros k _. rewrite mget_mul, !mget_getM3 by lia.
  rewrite !Nat.add_0_r. reflexivity.
Qed.
Lemma getV3_mult A B r c n : nc A = (3 * n)%nat ->
  getV3 (A *M B) r c = vsum n (fun k => getM3 A r (3 * k) *v getV3 B (3 * k) c).
Proof.
  intros H. apply V3_ext; intros i Hi. rewrite vget_getV3, ent_mult, vget_vsum, H, sum_3 by auto.
  apply sum_ext; intros k _. rewrite vget_mv, !mget_getM3, !vget_getV3 by lia.
  rewrite !Nat.add_0_r. reflexivity.
Qed.
Lemma msum_ext n f g : (forall k, (k < n)%nat -> f k = g k) -> msum n f = msum n g.
Proof. induction n as [|n IH]; simpl; intros H; [reflexivity|]. rewrite IH, H; auto. Qed.
Lemma vsum_ext n f g : (forall k, (k < n)%nat -> f k = g k) -> vsum n f = vsum n g.
Proof. induction n as [|n IH]; simpl; intros H; [reflexivity|]. rewrite IH, H; auto. Qed.
Lemma msum_zero n f : (forall k, (k < n)%nat -> f k = mzero) -> msum n f = mzero.
Proof.
  induction n as [|n IH]; simpl; intros H; [reflexivity|].
  rewrite IH, H, madd_zero_r by auto; reflexivity.
Qed.
Lemma vsum_zero n f : (forall k, (k < n)%nat -> f k = vzero) -> vsum n f = vzero.
Proof.
  induction n as [|n IH]; simpl; intros H; [reflexivity|].
  rewrite IH, H, vadd_zero_r by auto; reflexivity.
Qed.
Lemma msum_app n m f : msum (n + m) f = msum n f +m msum m (fun k => f (n + k)%nat).
Proof.
  induction m as [|m IH]; simpl; [rewrite Nat.add_0_r, madd_zero_r; reflexivity|].
  rewrite Nat.add_succ_r; simpl. rewrite IH, madd_assoc; reflexivity.
Qed.
Lemma vsum_app n m f : vsum (n + m) f = vsum n f +v vsum m (fun k => f (n + k)%nat).
Proof.
  induction m as [|m IH]; simpl; [rewrite Nat.add_0_r, vadd_zero_r; reflexivity|].
  rewrite Nat.add_succ_r; simpl. rewrite IH, vadd_assoc; reflexivity.
Qed.
Lemma msum_delta n k f : (forall i, (i < n)%nat -> i <> k -> f i = mzero) -> (k < n)%nat -> msum n f = f k.
Proof.
  intros H Hk. replace n with (k + (1 + (n - k - 1)))%nat by lia.
  rewrite !msum_app. simpl. rewrite (msum_zero k) by (intros; apply H; lia).
  rewrite (msum_zero (n - k - 1)) by (intros; apply H; lia).
  rewrite Nat.add_0_r, madd_zero_l, madd_zero_l, madd_zero_r; reflexivity.
Qed.
Lemma vsum_delta n k f : (forall i, (i < n)%nat -> i <> k -> f i = vzero) -> (k < n)%nat -> vsum n f = f k.
Proof.
  intros H Hk. replace n with (k + (1 + (n - k - 1)))%nat by lia.
  rewrite !vsum_app. simpl. rewrite (vsum_zero k) by (intros; apply H; lia).
  rewrite (vsum_zero (n - k - 1)) by (intros; apply H; lia).
  rewrite Nat.add_0_r, vadd_zero_l, vadd_zero_l, vadd_zero_r; reflexivity.
Qed.

(** a matrix with dimensions 3n x 3m is determined by its 3x3 blocks *)
Lemma mat_ext_blocks A B n m :
  nr A = (3 * n)%nat -> nc A = (3 * m)%nat -> nr B = (3 * n)%nat -> nc B = (3 * m)%nat ->
  (forall i j, (i < n)%nat -> (j < m)%nat -> getM3 A (3 * i) (3 * j) = getM3 B (3 * i) (3 * j)) -> A = B.
Proof.
  intros H1 H2 H3 H4 H. apply mat_ext; try congruence. intros i j Hi Hj.
  pose proof (Nat.div_mod i 3 ltac:(lia)) as Ei. pose proof (Nat.div_mod j 3 ltac:(lia)) as Ej.
  pose proof (Nat.mod_upper_bound i 3 ltac:(lia)). pose proof (Nat.mod_upper_bound j 3 ltac:(lia)).
  assert (i / 3 < n)%nat by (apply Nat.div_lt_upper_bound; lia).
  assert (j / 3 < m)%nat by (apply Nat.div_lt_upper_bound; lia).
  specialize (H (i / 3) (j / 3) ltac:(auto) ltac:(auto))%nat.
  apply (f_equal (fun M => mget M (i mod 3) (j mod 3))) in H.
  rewrite !mget_getM3 in H by auto. rewrite <- Ei, <- Ej in H. exact H.
Qed.
Lemma vec_ext_blocks A B n :
  nr A = (3 * n)%nat -> nc A = 1%nat -> nr B = (3 * n)%nat -> nc B = 1%nat ->
  (forall i, (i < n)%nat -> getV3 A (3 * i) 0 = getV3 B (3 * i) 0) -> A = B.
Proof.
  intros H1 H2 H3 H4 H. apply mat_ext; try congruence. intros i j Hi Hj.
  assert (j = 0)%nat as -> by lia.
  pose proof (Nat.div_mod i 3 ltac:(lia)) as Ei.
  pose proof (Nat.mod_upper_bound i 3 ltac:(lia)).
  assert (i / 3 < n)%nat by (apply Nat.div_lt_upper_bound; lia).
  specialize (H (i / 3) ltac:(auto))%nat.
  apply (f_equal (fun M => vget M (i mod 3))) in H.
  rewrite !vget_getV3 in H by auto. rewrite <- Ei in H. exact H.
Qed.

(** block reads of constructed matrices *)
Lemma getM3_put A i j B r c :
  nr B = 3%nat -> nc B = 3%nat -> (i + 3 <= nr A)%nat -> (j + 3 <= nc A)%nat ->
  (r = i \/ r + 3 <= i \/ i + 3 <= r)%nat -> (c = j \/ c + 3 <= j \/ j + 3 <= c)%nat ->
  getM3 (put A i j B) r c = if Nat.eqb r i && Nat.eqb c j then getM3 B 0 0 else getM3 A r c.
Proof.
  intros HB1 HB2 H1 H2 H3 H4. apply M3_ext; intros a b Ha Hb. rewrite mget_getM3 by auto.
  destruct (Nat.eqb_spec r i); destruct (Nat.eqb_spec c j); cbn [andb]; rewrite mget_getM3 by auto.
  - rewrite ent_put_in by lia. f_equal; lia.
  - rewrite ent_put_out by lia. reflexivity.
  - rewrite ent_put_out by lia. reflexivity.
  - rewrite ent_put_out by lia. reflexivity.
Qed.
Lemma getM3_eye n i j : (3 * i + 3 <= n)%nat -> (3 * j + 3 <= n)%nat ->
  getM3 (meye n) (3 * i) (3 * j) = if Nat.eqb i j then mid else mzero.
Proof.
  intros Hi Hj. apply M3_ext; intros a b Ha Hb. rewrite mget_getM3, ent_eye by lia.
  destruct (Nat.eqb_spec i j) as [->|Hne].
  - destruct a as [|[|[|a]]]; try lia; destruct b as [|[|[|b]]]; try lia;
      match goal with |- context [Nat.eqb ?x ?y] => destruct (Nat.eqb_spec x y); try lia; reflexivity end.
  - rewrite mget_zero. destruct (Nat.eqb_spec (3 * i + a) (3 * j + b)); [lia|reflexivity].
Qed.
Lemma getM3_O n m i j : getM3 (mO n m) i j = mzero.
Proof. apply M3_ext; intros; rewrite mget_getM3, ent_O, mget_zero by auto; reflexivity. Qed.
Lemma getM3_T A i j : getM3 (mT A) i j = mtr (getM3 A j i).
Proof.
  apply M3_ext; intros a b Ha Hb. rewrite mget_getM3, ent_T by auto.
  destruct a as [|[|[|a]]]; try lia; destruct b as [|[|[|b]]]; try lia; reflexivity.
Qed.
Lemma getM3_plus A B i j : nr A = nr B -> nc A = nc B ->
  getM3 (A +M B) i j = getM3 A i j +m getM3 B i j.
Proof.
  intros; apply M3_ext; intros a b Ha Hb. rewrite mget_add, !mget_getM3, ent_plus by auto. reflexivity.
Qed.
