(** Symmetric positive (semi-)definite matrices and the Kalman-update algebra.
    No project-specific content: this is specification vocabulary and lemmas. *)
From Coq Require Import Reals Lra Lia Arith List Bool.
From Verif Require Import Res Vec3 Mat MatInv.
Local Open Scope R_scope.

(** x^T P x *)
Definition quad (P x : mat) : R := ent (mT x *M P *M x) 0 0.

Definition sym (P : mat) : Prop := nr P = nc P /\ forall i j, ent P i j = ent P j i.

Record psd (P : mat) : Prop := {
  psd_sym : sym P;
  psd_quad : forall x, nr x = nr P -> nc x = 1%nat -> 0 <= quad P x }.

Record pd (P : mat) : Prop := {
  pd_sym : sym P;
  pd_quad : forall x, nr x = nr P -> nc x = 1%nat -> x <> mO (nr P) 1 -> 0 < quad P x }.

(** Loewner order *)
Definition loewner_le (A B : mat) : Prop := nr A = nr B /\ nc A = nc B /\ psd (B -M A).

Lemma quad_sum P x : nr x = nr P -> nc x = 1%nat ->
  quad P x = sum (nc P) (fun j => sum (nr P) (fun i => ent x i 0 * ent P i j * ent x j 0)).
Proof.
  intros H1 H2. unfold quad. rewrite ent_mult, nc_mult. apply sum_ext; intros j Hj.
  rewrite ent_mult, nc_T, H1, <- sum_scal_r. apply sum_ext; intros i Hi.
  rewrite ent_T. reflexivity.
Qed.

Lemma sym_T P : sym P <-> mT P = P.
Proof.
  split.
  - intros [H1 H2]. apply mat_ext; mdim. intros i j _ _. rewrite ent_T; auto.
  - intros H. split.
    + rewrite <- H at 1. reflexivity.
    + intros i j. rewrite <- H at 1. apply ent_T.
Qed.
Lemma psd_sq P : psd P -> nr P = nc P. Proof. intros H; apply H. Qed.
Lemma pd_sq P : pd P -> nr P = nc P. Proof. intros H; apply H. Qed.
Lemma psd_T P : psd P -> mT P = P. Proof. intros H; apply sym_T, H. Qed.
Lemma pd_T P : pd P -> mT P = P. Proof. intros H; apply sym_T, H. Qed.

Lemma quad_plus P Q x : nr P = nr Q -> nc P = nc Q -> quad (P +M Q) x = quad P x + quad Q x.
Proof.
  intros H1 H2. unfold quad. rewrite mmult_plus_r, mmult_plus_l, ent_plus by mdim. reflexivity.
Qed.
Lemma quad_minus P Q x : nr P = nr Q -> nc P = nc Q -> quad (P -M Q) x = quad P x - quad Q x.
Proof.
  intros H1 H2. unfold quad. rewrite mmult_minus_r, mmult_minus_l, ent_minus by mdim. reflexivity.
Qed.
Lemma quad_scl a P x : quad (a *S P) x = a * quad P x.
Proof. unfold quad. rewrite mmult_scl_r, mmult_scl_l, ent_scl. reflexivity. Qed.
Lemma quad_conj A P x : nr x = nr A -> quad (A *M P *M mT A) x = quad P (mT A *M x).
Proof.
  intros H1. unfold quad. rewrite mT_mult, mT_T by mdim.
  rewrite !mmult_assoc. reflexivity.
Qed.
Lemma quad_0 P n : nr P = n -> quad P (mO n 1) = 0.
Proof. intros. unfold quad. rewrite mmult_O_r, ent_O. reflexivity. Qed.

Lemma sym_plus P Q : nr P = nr Q -> nc P = nc Q -> sym P -> sym Q -> sym (P +M Q).
Proof.
  intros H1 H2 [H3 H4] [H5 H6]. split; mdim. intros i j. rewrite !ent_plus by mdim.
  rewrite H4, H6; reflexivity.
Qed.
Lemma sym_minus P Q : nr P = nr Q -> nc P = nc Q -> sym P -> sym Q -> sym (P -M Q).
Proof.
  intros H1 H2 [H3 H4] [H5 H6]. split; mdim. intros i j. rewrite !ent_minus by mdim.
  rewrite H4, H6; reflexivity.
Qed.
Lemma sym_conj A P : nc A = nr P -> sym P -> sym (A *M P *M mT A).
Proof.
  intros H1 H2. apply sym_T. pose proof (proj1 H2) as Hsq. apply sym_T in H2.
  rewrite mT_mult, mT_mult, mT_T, H2, mmult_assoc by mdim. reflexivity.
Qed.

Lemma psd_conj A P : nc A = nr P -> psd P -> psd (A *M P *M mT A).
Proof.
  intros H1 [H2 H3]. split.
  - apply sym_conj; auto.
  - intros x Hx1 Hx2. mdim. rewrite quad_conj by auto. apply H3; mdim.
Qed.
Lemma psd_plus P Q : nr P = nr Q -> psd P -> psd Q -> psd (P +M Q).
Proof.
  intros H [H1 H2] [H3 H4].
  assert (nc P = nc Q) by (destruct H1, H3; congruence). split.
  - apply sym_plus; auto.
  - intros x Hx1 Hx2. mdim. rewrite quad_plus by auto.
    specialize (H2 x Hx1 Hx2). specialize (H4 x ltac:(congruence) Hx2). lra.
Qed.
Lemma psd_scl a P : 0 <= a -> psd P -> psd (a *S P).
Proof.
  intros Ha [[H0 H1] H2]. split.
  - split; mdim. intros; rewrite !ent_scl, H1; reflexivity.
  - intros x Hx1 Hx2. mdim. rewrite quad_scl. apply Rmult_le_pos; auto.
Qed.
Lemma psd_O n : psd (mO n n).
Proof.
  split; [split; mdim; intros; rewrite !ent_O; reflexivity|].
  intros x _ _. unfold quad. rewrite mmult_O_r, mmult_O_l, ent_O. lra.
Qed.
Lemma quad_eye n x : nr x = n -> quad (meye n) x = sum n (fun i => ent x i 0 * ent x i 0).
Proof.
  intros H. unfold quad. rewrite mmult_eye_r, ent_mult by mdim. rewrite nc_T, H.
  apply sum_ext; intros; rewrite ent_T; reflexivity.
Qed.
Lemma psd_eye n : psd (meye n).
Proof.
  split; [apply sym_T, mT_eye|]. intros x Hx _. mdim. rewrite quad_eye by auto.
  apply sum_nonneg; intros; nra.
Qed.
Lemma sum_sq_0 n f : sum n (fun i => f i * f i) = 0 -> forall i, (i < n)%nat -> f i = 0.
Proof.
  induction n as [|n IH]; simpl; intros H i Hi; [lia|].
  assert (0 <= sum n (fun i => f i * f i)) by (apply sum_nonneg; intros; nra).
  assert (f n * f n = 0) by nra.
  destruct (Nat.eq_dec i n) as [->|]; [nra|]. apply IH; [nra|lia].
Qed.
Lemma vec_nonzero x n : nr x = n -> nc x = 1%nat -> x <> mO n 1 ->
  0 < sum n (fun i => ent x i 0 * ent x i 0).
Proof.
  intros H1 H2 H3.
  assert (0 <= sum n (fun i => ent x i 0 * ent x i 0)) as H by (apply sum_nonneg; intros; nra).
  destruct (Req_dec (sum n (fun i => ent x i 0 * ent x i 0)) 0) as [E|E]; [|lra].
  exfalso; apply H3. apply mat_ext; mdim. intros i j Hi Hj. rewrite ent_O.
  assert (j = 0)%nat as -> by lia. apply (sum_sq_0 n (fun i => ent x i 0)); auto; lia.
Qed.
Lemma pd_eye n : pd (meye n).
Proof.
  split; [apply sym_T, mT_eye|]. intros x Hx1 Hx2 Hx. mdim. rewrite quad_eye by auto.
  apply vec_nonzero; auto.
Qed.
Lemma pd_scl a P : 0 < a -> pd P -> pd (a *S P).
Proof.
  intros Ha [[H0 H1] H2]. split.
  - split; mdim. intros; rewrite !ent_scl, H1; reflexivity.
  - intros x Hx1 Hx2 Hx. mdim. rewrite quad_scl. apply Rmult_lt_0_compat; auto.
Qed.
Lemma pd_psd P : pd P -> psd P.
Proof.
  intros [H1 H2]. split; auto. intros x Hx1 Hx2.
  assert (x = mO (nr P) 1 \/ x <> mO (nr P) 1) as [->|Hx].
  { destruct (Req_dec (sum (nr P) (fun i => ent x i 0 * ent x i 0)) 0) as [E|E].
    - left. apply mat_ext; mdim. intros i j Hi Hj. rewrite ent_O.
      assert (j = 0)%nat as -> by lia.
      apply (sum_sq_0 (nr P) (fun i => ent x i 0)); auto; lia.
    - right. intros ->. apply E. apply sum_zero; intros; rewrite ent_O; ring. }
  - rewrite quad_0 by auto. lra.
  - left; auto.
Qed.
Lemma pd_plus_l P N : nr P = nr N -> psd P -> pd N -> pd (P +M N).
Proof.
  intros H [H1 H2] [H3 H4].
  assert (nc P = nc N) by (destruct H1, H3; congruence). split.
  - apply sym_plus; auto.
  - intros x Hx1 Hx2 Hx. mdim. rewrite quad_plus by auto.
    specialize (H2 x Hx1 Hx2). specialize (H4 x ltac:(congruence) Hx2 ltac:(congruence)). lra.
Qed.
Lemma quad_mult0 P x : nr x = nr P -> P *M x = mO (nr P) 1 -> quad P x = 0.
Proof. intros H E. unfold quad. rewrite <- mmult_assoc, E, mmult_O_r, ent_O. reflexivity. Qed.

Lemma pd_inv P : pd P -> exists Q, minv P = Some Q.
Proof.
  intros H. destruct (minv P) as [Q|] eqn:E; [eauto|]. exfalso.
  assert (minv P <> None); [|congruence].
  apply minv_ker; [apply H|]. intros x Hx1 Hx2 E0.
  pose proof (pd_sq P H) as Hsq.
  destruct (Req_dec (sum (nr P) (fun i => ent x i 0 * ent x i 0)) 0) as [E1|E1].
  - apply mat_ext; mdim. intros i j Hi Hj. rewrite ent_O. assert (j = 0)%nat as -> by lia.
    apply (sum_sq_0 (nr P) (fun i => ent x i 0)); auto; lia.
  - exfalso. assert (0 < quad P x) as Hq.
    { apply (pd_quad P H); try congruence. intros ->. apply E1.
      apply sum_zero; intros; rewrite ent_O; ring. }
    rewrite quad_mult0 in Hq by (auto; congruence). lra.
Qed.

Lemma minv_sym P Q : sym P -> minv P = Some Q -> sym Q.
Proof.
  intros Hs HQ. pose proof HQ as HQ'. apply minv_some in HQ. destruct HQ as (H1 & H2 & H3 & H4 & H5).
  apply sym_T. apply sym_T in Hs.
  assert (minv P = Some (mT Q)) as E.
  { apply (minv_unique P (mT Q) (nr P)); mdim.
    rewrite <- Hs at 1. rewrite <- mT_mult by mdim. rewrite H4, mT_eye. reflexivity. }
  congruence.
Qed.
Lemma pd_minv P Q : pd P -> minv P = Some Q -> pd Q.
Proof.
  intros HP HQ. pose proof (minv_sym _ _ (pd_sym _ HP) HQ) as Hs.
  pose proof HQ as HQ'. apply minv_some in HQ. destruct HQ as (H1 & H2 & H3 & H4 & H5).
  split; auto. intros x Hx1 Hx2 Hx.
  assert (Q = Q *M P *M mT Q) as E.
  { apply sym_T in Hs. rewrite Hs. rewrite H5, mmult_eye_l by auto. reflexivity. }
  rewrite E, quad_conj by auto. apply sym_T in Hs. rewrite Hs.
  apply (pd_quad P HP); mdim. intros E0. apply Hx.
  rewrite <- (mmult_eye_l x (nr P)) by congruence. rewrite <- H4, <- mmult_assoc, E0, mmult_O_r.
  congruence.
Qed.

(** ** Replacing rows/columns by a fixed diagonal block *)
(** keep P outside the index set where m is true, put c on the diagonal inside *)
Definition mask_diag (m : nat -> bool) (c : R) (P : mat) : mat :=
  mk (nr P) (nc P) (fun i j =>
    if m i || m j then (if Nat.eqb i j then c else 0) else ent P i j).
Definition sel (m : nat -> bool) (n : nat) : mat :=
  mk n n (fun i j => if Nat.eqb i j && negb (m i) then 1 else 0).

Lemma mask_diag_eq m c P : nr P = nc P ->
  mask_diag m c P = sel m (nr P) *M P *M mT (sel m (nr P)) +M c *S sel (fun i => negb (m i)) (nr P).
Proof.
  intros Hsq. apply mat_ext; try reflexivity.
  { unfold mask_diag; mdim. unfold sel; mdim. }
  intros i j Hi Hj. unfold mask_diag in *. mdim. rewrite ent_mk by lia.
  assert (nr (sel m (nr P)) = nr P /\ nc (sel m (nr P)) = nr P) as [Hs1 Hs2] by (split; reflexivity).
  rewrite ent_plus by (mdim; reflexivity).
  rewrite ent_scl, ent_mult. rewrite (sum_delta' _ j).
  2:{ intros k Hk Hne. rewrite ent_T. unfold sel at 2. rewrite ent_mk by (mdim; lia).
      destruct (Nat.eqb_spec j k); [congruence|]. simpl; ring. }
  2:{ mdim. }
  rewrite ent_mult, (sum_delta' _ i).
  2:{ intros k Hk Hne. unfold sel. rewrite ent_mk by (mdim; lia).
      destruct (Nat.eqb_spec i k); [congruence|]. simpl; ring. }
  2:{ mdim. }
  rewrite ent_T. unfold sel. rewrite !ent_mk by lia. rewrite !Nat.eqb_refl.
  destruct (m i) eqn:Ei; destruct (m j) eqn:Ej; destruct (Nat.eqb_spec i j) as [Hij|Hne]; simpl;
    try ring; subst; congruence.
Qed.
Lemma quad_sel m n x : nr x = n -> nc x = 1%nat ->
  quad (sel m n) x = sum n (fun i => if m i then 0 else ent x i 0 * ent x i 0).
Proof.
  intros H1 H2. rewrite quad_sum by auto. change (nc (sel m n)) with n. change (nr (sel m n)) with n.
  apply sum_ext; intros j Hj. rewrite (sum_delta' _ j); auto.
  - unfold sel; rewrite ent_mk by auto. rewrite Nat.eqb_refl. destruct (m j); simpl; ring.
  - intros i Hi Hne. unfold sel; rewrite ent_mk by auto.
    destruct (Nat.eqb_spec i j); [congruence|]. simpl; ring.
Qed.
Lemma psd_sel m n : psd (sel m n).
Proof.
  split.
  - split; [reflexivity|]. intros i j. unfold sel. rewrite !ent_mk_if.
    rewrite (Nat.eqb_sym j i). destruct (Nat.eqb_spec i j) as [->|]; [reflexivity|]. simpl.
    destruct (inr n n i j), (inr n n j i); reflexivity.
  - intros x Hx1 Hx2. rewrite quad_sel by auto. apply sum_nonneg; intros i _.
    destruct (m i); nra.
Qed.
Lemma psd_mask_diag m c P : 0 <= c -> psd P -> psd (mask_diag m c P).
Proof.
  intros Hc HP. rewrite mask_diag_eq by (apply HP). apply psd_plus; [reflexivity| |].
  - apply psd_conj; auto.
  - apply psd_scl; auto. apply psd_sel.
Qed.

(** ** Kalman update algebra *)
Section Kalman.
Variables (P H N Sinv : mat) (n m : nat).
Hypothesis (HP : psd P) (HN : psd N) (HnP : nr P = n) (HrH : nr H = m) (HcH : nc H = n) (HrN : nr N = m).
Let S := H *M P *M mT H +M N.
Hypothesis HS : minv S = Some Sinv.
Let K := P *M mT H *M Sinv.

Let HncP : nc P = n. Proof. pose proof (psd_sq _ HP). congruence. Qed.
Let HncN : nc N = m. Proof. pose proof (psd_sq _ HN). congruence. Qed.
Let HSf : nr Sinv = m /\ nc Sinv = m /\ S *M Sinv = meye m /\ Sinv *M S = meye m.
Proof.
  destruct (minv_some _ _ HS) as (_ & A1 & A2 & A3 & A4).
  assert (nr S = m) as E by exact HrH. rewrite E in *. auto.
Qed.

Lemma kalman_joseph_psd :
  psd ((meye n -M K *M H) *M P *M mT (meye n -M K *M H) +M K *M N *M mT K).
Proof.
  destruct HSf as (S1 & S2 & _ & _). unfold K. apply psd_plus.
  - mdim.
  - apply psd_conj; mdim.
  - apply psd_conj; mdim.
Qed.

Lemma kalman_S_psd : psd S.
Proof. unfold S. apply psd_plus; [mdim | | auto]. apply psd_conj; mdim. Qed.

Lemma kalman_KS : K *M S = P *M mT H.
Proof.
  destruct HSf as (S1 & S2 & S3 & S4). unfold K. rewrite <- mmult_assoc, S4. apply mmult_eye_r. mdim.
Qed.

Lemma kalman_joseph_eq :
  (meye n -M K *M H) *M P *M mT (meye n -M K *M H) +M K *M N *M mT K = P -M K *M S *M mT K.
Proof.
  destruct HSf as (S1 & S2 & S3 & S4).
  assert (nr K = n) by (unfold K; mdim). assert (nc K = m) by (unfold K; mdim).
  assert (nr S = m) by (unfold S; mdim). assert (nc S = m) by (unfold S; mdim).
  assert (mT K = Sinv *M (H *M P)) as HKT.
  { unfold K. rewrite mT_mult, mT_mult, mT_T by mdim.
    rewrite (psd_T _ HP). pose proof (minv_sym _ _ (psd_sym _ kalman_S_psd) HS) as Hs. apply sym_T in Hs.
    rewrite Hs. reflexivity. }
  assert (K *M S *M mT K = P *M mT H *M mT K) as E1 by (rewrite kalman_KS; reflexivity).
  assert (K *M S *M mT K = K *M (H *M P)) as E2.
  { rewrite HKT, mmult_assoc, <- (mmult_assoc K S Sinv), S3, mmult_eye_r by auto. reflexivity. }
  rewrite mT_minus, mT_eye, mT_mult by mdim.
  rewrite mmult_minus_l, mmult_eye_l by mdim.
  rewrite mmult_minus_r by mdim.
  rewrite mmult_eye_r by mdim.
  rewrite (mmult_minus_l P) by mdim.
  assert (K *M S *M mT K = K *M H *M P *M (mT H *M mT K) +M K *M N *M mT K) as E3.
  { unfold S. rewrite mmult_plus_r, mmult_plus_l by mdim. rewrite !mmult_assoc. reflexivity. }
  clearbody K S. clear HKT S3 S4 HS.
  rewrite ?mmult_assoc in E1; rewrite ?mmult_assoc in E2; rewrite ?mmult_assoc in E3. rewrite ?mmult_assoc.
  apply mat_ext; [mdim|mdim|]. intros i j Hi Hj.
  apply (f_equal (fun M => ent M i j)) in E1.
  apply (f_equal (fun M => ent M i j)) in E2.
  apply (f_equal (fun M => ent M i j)) in E3.
  rewrite ent_plus in E3 by mdim.
  repeat (first [rewrite ent_plus by mdim | rewrite ent_minus by mdim]). lra.
Qed.

Lemma kalman_decrease :
  loewner_le ((meye n -M K *M H) *M P *M mT (meye n -M K *M H) +M K *M N *M mT K) P.
Proof.
  destruct HSf as (S1 & S2 & S3 & S4).
  assert (nr K = n) by (unfold K; mdim). assert (nc K = m) by (unfold K; mdim).
  assert (nr S = m) by (unfold S; mdim). assert (nc S = m) by (unfold S; mdim).
  rewrite kalman_joseph_eq. split; [mdim|split; [mdim|]].
  assert (P -M (P -M K *M S *M mT K) = K *M S *M mT K) as ->.
  { mring. }
  apply psd_conj; [mdim|]. apply kalman_S_psd.
Qed.

Lemma kalman_simple_eq :
  (meye n -M K *M H) *M P *M mT (meye n -M K *M H) +M K *M N *M mT K = (meye n -M K *M H) *M P.
Proof.
  destruct HSf as (S1 & S2 & S3 & S4).
  assert (nr K = n) by (unfold K; mdim). assert (nc K = m) by (unfold K; mdim).
  assert (nr S = m) by (unfold S; mdim). assert (nc S = m) by (unfold S; mdim).
  rewrite kalman_joseph_eq, mmult_minus_l, mmult_eye_l by mdim. f_equal.
  assert (mT K = Sinv *M (H *M P)) as HKT.
  { unfold K. rewrite mT_mult, mT_mult, mT_T by mdim.
    rewrite (psd_T _ HP). pose proof (minv_sym _ _ (psd_sym _ kalman_S_psd) HS) as Hs. apply sym_T in Hs.
    rewrite Hs. reflexivity. }
  rewrite HKT, mmult_assoc, <- (mmult_assoc K S Sinv), S3, mmult_eye_r by auto.
  apply mmult_assoc.
Qed.
End Kalman.

Lemma kalman_S_pd P H N n m : psd P -> pd N -> nr P = n -> nr H = m -> nc H = n -> nr N = m ->
  pd (H *M P *M mT H +M N).
Proof. intros HP HN H1 H2 H3 H4. apply pd_plus_l; auto; mdim. apply psd_conj; auto; mdim. Qed.
