(** Proofs about the SO(3) part of LieGroup.v. *)
From Coq Require Import Reals ZArith List Bool Lia Lra Psatz.
From Coquelicot Require Import Coquelicot.
From Verif Require Import Res Vec3 Mat LieGroup MatInv Psd Spec.
Import ListNotations.
Local Open Scope R_scope.

(** ** skew *)
Lemma skew_is_cross w : is_cross_matrix (skew w) w.
Proof. intros u. unfold skew, cross. ring3. Qed.
Lemma skew_tr w : mtr (skew w) = skew (vneg w).
Proof. unfold skew. ring3. Qed.
Lemma skew_neg w : skew (vneg w) = mscal (-1) (skew w).
Proof. unfold skew. ring3. Qed.
Lemma skew_add u v : skew (u +v v) = skew u +m skew v.
Proof. unfold skew. ring3. Qed.
Lemma skew_scal a v : skew (a *s v) = a *ms skew v.
Proof. unfold skew. ring3. Qed.
Lemma skew_self w : skew w *v w = vzero.
Proof. unfold skew. ring3. Qed.
Lemma skew_cube w : skew w *m skew w *m skew w = (- vdot w w) *ms skew w.
Proof. unfold skew. ring3. Qed.
Lemma skew_sq w : skew w *m skew w =
  mkM (v0 w * v0 w) (v0 w * v1 w) (v0 w * v2 w)
      (v1 w * v0 w) (v1 w * v1 w) (v1 w * v2 w)
      (v2 w * v0 w) (v2 w * v1 w) (v2 w * v2 w) -m (vdot w w) *ms mid.
Proof. unfold skew. ring3. Qed.
Lemma skew_cross u v : skew (cross u v) = skew u *m skew v -m skew v *m skew u.
Proof. unfold skew. ring3. Qed.

Lemma skew_cube_norm w : skew w *m skew w *m skew w = (- (vnorm w * vnorm w)) *ms skew w.
Proof. rewrite vnorm_sq. apply skew_cube. Qed.

(** rotations act on cross products *)
Lemma SO3_rot_skew_aux A u : mtr A *m skew (A *v u) *m A = det3 A *ms skew u.
Proof. unfold skew. ring3. Qed.
Lemma SO3_r A : SO3 A -> A *m mtr A = mid.
Proof.
  intros [H Hd].
  assert (forall i j, (i < 3)%nat -> (j < 3)%nat -> mget (mtr A *m A) i j = mget mid i j) as E
    by (intros; rewrite H; reflexivity).
  (* A^T A = I, so the cofactor matrix times A = det I gives A^T = adj A; then A A^T = A adj A = I *)
  set (C := mkM (m11 A * m22 A - m12 A * m21 A) (m02 A * m21 A - m01 A * m22 A) (m01 A * m12 A - m02 A * m11 A)
                (m12 A * m20 A - m10 A * m22 A) (m00 A * m22 A - m02 A * m20 A) (m02 A * m10 A - m00 A * m12 A)
                (m10 A * m21 A - m11 A * m20 A) (m01 A * m20 A - m00 A * m21 A) (m00 A * m11 A - m01 A * m10 A)).
  assert (A *m C = det3 A *ms mid) as HC by (unfold C; ring3).
  assert (mtr A = C) as ->.
  { rewrite <- (mmul_id_r (mtr A)). rewrite <- (mscal_1 mid), <- Hd, <- HC.
    rewrite mmul_assoc, H, mmul_id_l. reflexivity. }
  rewrite HC, Hd, mscal_1. reflexivity.
Qed.
Lemma SO3_skew A u : SO3 A -> skew (A *v u) = A *m skew u *m mtr A.
Proof.
  intros HA. pose proof (SO3_rot_skew_aux A u) as E. pose proof (SO3_r A HA) as Hr.
  destruct HA as [Hl Hd]. rewrite Hd, mscal_1 in E.
  rewrite <- E. rewrite !mmul_assoc, Hr, mmul_id_l, <- mmul_assoc, Hr, mmul_id_r. reflexivity.
Qed.
Lemma SO3_mul A B : SO3 A -> SO3 B -> SO3 (A *m B).
Proof.
  intros [H1 H2] [H3 H4]. split.
  - rewrite mtr_mul, <- mmul_assoc, (mmul_assoc (mtr A)), H1, mmul_id_l. exact H3.
  - rewrite det_mul, H2, H4; ring.
Qed.
Lemma SO3_tr A : SO3 A -> SO3 (mtr A).
Proof.
  intros H. split; [rewrite mtr_tr; apply SO3_r; auto|]. rewrite det_tr; apply H.
Qed.
Lemma SO3_id : SO3 mid.
Proof. split; [ring3|apply det_id]. Qed.
Lemma SO3_l A u : SO3 A -> mtr A *v (A *v u) = u.
Proof. intros [H _]. rewrite <- mv_mul, H. apply mv_id. Qed.
Lemma SO3_rv A u : SO3 A -> A *v (mtr A *v u) = u.
Proof. intros H. rewrite <- mv_mul, SO3_r by auto. apply mv_id. Qed.
Lemma SO3_norm A u : SO3 A -> vnorm (A *v u) = vnorm u.
Proof. intros H. unfold vnorm. rewrite vdot_mv, SO3_l by auto. reflexivity. Qed.

(** ** Scalar series:  sc m t = sum_k (-1)^k t^(2k) / (2k+m)!  *)
Fixpoint sc (m : nat) (t : R) {struct m} : R :=
  match m with
  | O => cos t
  | S O => sin t / t
  | S (S k) => (/ INR (fact k) - sc k t) / (t * t)
  end.

Lemma is_ser_ext (a b : nat -> R) (l : R) : (forall n, a n = b n) -> is_series a l -> is_series b l.
Proof. intros H; apply (is_series_ext a b l H). Qed.
Lemma is_ser_scal_l (c : R) (a : nat -> R) (l : R) : is_series a l -> is_series (fun n => c * a n) (c * l).
Proof. intros H; apply (is_series_scal_l c a l H). Qed.
Lemma is_ser_scal_r (c : R) (a : nat -> R) (l : R) : is_series a l -> is_series (fun n => a n * c) (l * c).
Proof. intros H; apply (is_series_scal_r c a l H). Qed.
Lemma is_ser_shift (a : nat -> R) (l : R) : is_series a l -> is_series (fun n => a (S n)) (l - a O).
Proof.
  intros H. apply is_series_incr_1. unfold plus; simpl.
  replace (l - a O + a O) with l by ring. exact H.
Qed.
Lemma is_ser_unshift (a : nat -> R) (l : R) : is_series (fun n => a (S n)) (l - a O) -> is_series a l.
Proof. intros H. apply is_series_decr_1. exact H. Qed.

Definition sterm (m : nat) (t : R) (k : nat) : R := (-1) ^ k * t ^ (2 * k) / INR (fact (2 * k + m)).

Lemma INR_fact_nz n : INR (fact n) <> 0. Proof. apply INR_fact_neq_0. Qed.

Lemma sterm_S m t k : t <> 0 -> sterm m t (S k) = - (t * t) * sterm (S (S m)) t k.
Proof.
  intros Ht. unfold sterm. replace (2 * S k + m)%nat with (2 * k + S (S m))%nat by lia.
  replace (2 * S k)%nat with (2 + 2 * k)%nat by lia. rewrite pow_add. simpl pow.
  field. apply INR_fact_nz.
Qed.

Lemma sc_series t : t <> 0 -> forall m, is_series (sterm m t) (sc m t).
Proof.
  intros Ht.
  assert (forall m, is_series (sterm m t) (sc m t) /\ is_series (sterm (S m) t) (sc (S m) t)) as H.
  2:{ intros m; apply H. }
  induction m as [|m [IH1 IH2]].
  - split.
    + apply is_series_Reals. unfold sc, cos. destruct (exist_cos (Rsqr t)) as [l Hl]. simpl.
      unfold cos_in, cos_n in Hl. apply is_series_Reals in Hl. apply is_series_Reals.
      revert Hl. apply is_ser_ext. intros k. unfold sterm. rewrite Nat.add_0_r.
      unfold Rsqr. rewrite pow_mult. replace (t ^ 2) with (t * t) by ring. field. apply INR_fact_nz.
    + cbn [sc]. unfold sin. destruct (exist_sin (Rsqr t)) as [l Hl].
      unfold sin_in, sin_n in Hl. apply is_series_Reals in Hl.
      replace (t * l / t) with l by (field; auto).
      revert Hl. apply is_ser_ext. intros k. unfold sterm. rewrite pow_mult.
      unfold Rsqr. replace (t ^ 2) with (t * t) by ring. field. apply INR_fact_nz.
  - split; [exact IH2|]. cbn [sc].
    assert (is_series (fun k => sterm m t (S k)) (sc m t - / INR (fact m))) as H.
    { replace (/ INR (fact m)) with (sterm m t 0) by (unfold sterm; simpl; field; apply INR_fact_nz).
      apply is_ser_shift, IH1. }
    apply (is_ser_scal_l (- / (t * t))) in H.
    replace ((/ INR (fact m) - sc m t) / (t * t)) with (- / (t * t) * (sc m t - / INR (fact m))).
    2:{ field. split; auto using INR_fact_nz. }
    revert H. apply is_ser_ext. intros k. rewrite sterm_S by auto. field; auto.
Qed.

Lemma sc_rec m t : t <> 0 -> sc m t = / INR (fact m) - t * t * sc (S (S m)) t.
Proof. intros Ht. cbn [sc]. field. split; auto using INR_fact_nz. Qed.

(** the Gamma closed form *)
Definition Gam (m : nat) (w : V3) : M3 :=
  (/ INR (fact m)) *ms mid +m (sc (S m) (vnorm w)) *ms skew w
  +m (sc (S (S m)) (vnorm w)) *ms (skew w *m skew w).

Lemma mpow_odd w k : mpow (skew w) (2 * k + 1) = ((-1) ^ k * vnorm w ^ (2 * k)) *ms skew w.
Proof.
  induction k as [|k IH].
  - simpl. rewrite mmul_id_l, Rmult_1_l, mscal_1. reflexivity.
  - replace (2 * S k + 1)%nat with (S (S (2 * k + 1))) by lia. cbn [mpow]. rewrite IH.
    rewrite !mmul_scal_l, skew_cube_norm, mscal_scal. f_equal.
    replace (2 * S k)%nat with (S (S (2 * k))) by lia. simpl. ring.
Qed.
Lemma mpow_even w k : mpow (skew w) (2 * k + 2) = ((-1) ^ k * vnorm w ^ (2 * k)) *ms (skew w *m skew w).
Proof.
  replace (2 * k + 2)%nat with (S (2 * k + 1)) by lia. cbn [mpow]. rewrite mpow_odd, mmul_scal_l. reflexivity.
Qed.
Lemma mget_scal a A i j : mget (a *ms A) i j = a * mget A i j.
Proof. destruct i as [|[|[|i]]]; try (destruct j as [|[|[|j]]]); simpl; ring. Qed.

Lemma vnorm_0_inv w : vnorm w = 0 -> w = vzero.
Proof.
  intros H. pose proof (vnorm_sq w) as E. rewrite H in E. destruct w as [a b c]. unfold vdot in E; simpl in E.
  apply V3_eq; simpl; nra.
Qed.
Lemma skew_zero : skew vzero = mzero.
Proof. unfold skew, vzero, mzero; simpl; f_equal; ring. Qed.

Lemma Gam_series w m : vnorm w <> 0 ->
  matrix_series3 (fun n => / INR (fact (n + m))) (skew w) (Gam m w).
Proof.
  intros Hw i j Hi Hj. apply is_series_Reals.
  set (t := vnorm w) in *. set (f := fun n => / INR (fact (n + m)) * mget (mpow (skew w) n) i j).
  set (a1 := mget (skew w) i j). set (a2 := mget (skew w *m skew w) i j).
  assert (is_series (fun k => f (2 * k + 1)%nat) (sc (S m) t * a1)) as Ho.
  { pose proof (is_ser_scal_r a1 _ _ (sc_series t Hw (S m))) as H.
    revert H. apply is_ser_ext. intros k. unfold f. rewrite mpow_odd, mget_scal.
    unfold sterm. replace (2 * k + 1 + m)%nat with (2 * k + S m)%nat by lia. fold t a1. field. apply INR_fact_nz. }
  assert (is_series (fun k => f (2 * k)%nat) (/ INR (fact m) * mget mid i j + sc (S (S m)) t * a2)) as He.
  { apply is_ser_unshift.
    replace (_ - f (2 * 0)%nat) with (sc (S (S m)) t * a2) by (unfold f; simpl; ring).
    pose proof (is_ser_scal_r a2 _ _ (sc_series t Hw (S (S m)))) as H.
    revert H. apply is_ser_ext. intros k. unfold f.
    replace (2 * S k)%nat with (2 * k + 2)%nat by lia. rewrite mpow_even, mget_scal.
    unfold sterm. replace (2 * k + 2 + m)%nat with (2 * k + S (S m))%nat by lia. fold t a2. field. apply INR_fact_nz. }
  assert (is_pseries f 1 ((/ INR (fact m) * mget mid i j + sc (S (S m)) t * a2) + 1 * (sc (S m) t * a1))) as H.
  { apply is_pseries_odd_even.
    - apply is_pseries_R. revert He. apply is_ser_ext. intros k. rewrite !pow1. ring.
    - apply is_pseries_R. revert Ho. apply is_ser_ext. intros k. rewrite !pow1. ring. }
  apply is_pseries_R in H.
  replace (mget (Gam m w) i j) with ((/ INR (fact m) * mget mid i j + sc (S (S m)) t * a2) + 1 * (sc (S m) t * a1)).
  2:{ unfold Gam. rewrite !mget_add, !mget_scal. fold t a1 a2. ring. }
  revert H. apply is_ser_ext. intros k. rewrite pow1. unfold f. ring.
Qed.

Lemma is_series_first (f : nat -> R) : (forall n, f (S n) = 0) -> is_series f (f O).
Proof.
  intros H. apply is_ser_unshift. rewrite Rminus_eq_0.
  apply is_series_Reals. intros eps He. exists O. intros n _.
  rewrite sum_eq_R0; [unfold R_dist; rewrite Rminus_0_r, Rabs_R0; auto|]. intros; apply H.
Qed.

Lemma mpow_zero n : mpow mzero (S n) = mzero.
Proof. cbn [mpow]. apply mmul_zero_r. Qed.

Lemma Gam_series_0 m :
  matrix_series3 (fun n => / INR (fact (n + m))) (skew vzero) ((/ INR (fact m)) *ms mid).
Proof.
  intros i j Hi Hj. apply is_series_Reals. rewrite skew_zero.
  replace (mget (/ INR (fact m) *ms mid) i j) with
    ((fun n => / INR (fact (n + m)) * mget (mpow mzero n) i j) O).
  2:{ simpl. rewrite mget_scal. reflexivity. }
  apply (is_series_first (fun n => / INR (fact (n + m)) * mget (mpow mzero n) i j)).
  intros n. rewrite mpow_zero, mget_zero. ring.
Qed.

(** ** factorial and its overflow *)
Lemma lmul_ok a b : (0 <= a * b <= long_max)%Z -> lmul a b = Ok (a * b)%Z.
Proof.
  intros H. unfold lmul. destruct (Z.leb_spec (- long_max - 1) (a * b)); [|unfold long_max in *; lia].
  destruct (Z.leb_spec (a * b) long_max); [reflexivity|lia].
Qed.
Lemma lmul_fail a b : (long_max < a * b)%Z -> lmul a b = Fail IntOverflow.
Proof.
  intros H. unfold lmul. destruct (Z.leb_spec (a * b) long_max); [lia|]. rewrite andb_false_r. reflexivity.
Qed.

Fixpoint zfact (n : nat) : Z := match n with O => 1 | S k => zfact k * Z.of_nat n end%Z.
Lemma zfact_fact n : zfact n = Z.of_nat (fact n).
Proof. induction n as [|n IH]; [reflexivity|]. cbn [zfact fact]. rewrite IH, Nat2Z.inj_mul || idtac. lia. Qed.
Lemma zfact_pos n : (1 <= zfact n)%Z.
Proof. rewrite zfact_fact. pose proof (lt_O_fact n). lia. Qed.
Lemma zfact_le n m : (n <= m)%nat -> (zfact n <= zfact m)%Z.
Proof.
  induction 1 as [|m H IH]; [lia|]. cbn [zfact]. pose proof (zfact_pos m). nia.
Qed.
Lemma zfact_20 n : (n <= 20)%nat -> (zfact n <= long_max)%Z.
Proof. intros H. apply (Z.le_trans _ _ _ (zfact_le n 20 H)). vm_compute. discriminate. Qed.
Lemma factorial_ok n : (n <= 20)%nat -> factorial n = Ok (zfact n).
Proof.
  induction n as [|n IH]; intros H; [reflexivity|]. cbn [factorial zfact]. rewrite IH by lia. simpl bind.
  apply lmul_ok. pose proof (zfact_20 (S n) H). pose proof (zfact_pos (S n)). cbn [zfact] in *. lia.
Qed.
Lemma factorial_overflow n : (20 < n)%nat -> factorial n = Fail IntOverflow.
Proof.
  intros H. induction n as [|n IH]; [lia|]. cbn [factorial].
  destruct (Nat.eq_dec n 20) as [->|Hn].
  - rewrite factorial_ok by lia. cbn [bind]. apply lmul_fail. vm_compute. reflexivity.
  - rewrite IH by lia. reflexivity.
Qed.
Lemma IZR_zfact n : IZR (zfact n) = INR (fact n).
Proof. rewrite zfact_fact, <- INR_IZR_INZ. reflexivity. Qed.

(** partial sums of the exponential *)
Fixpoint psumA (A : M3) (k : nat) : M3 :=
  match k with O => mid | S k' => psumA A k' +m (/ INR (fact k)) *ms mpow A k end.
Lemma gamma_loop_ok A k : (k <= 20)%nat -> gamma_loop A k = Ok (zfact k, mpow A k, psumA A k).
Proof.
  induction k as [|k IH]; intros H; [reflexivity|].
  cbn [gamma_loop]. rewrite IH by lia. cbn [bind].
  rewrite lmul_ok.
  2:{ pose proof (zfact_20 (S k) H). pose proof (zfact_pos (S k)). cbn [zfact] in *. lia. }
  cbn [bind]. change (zfact k * Z.of_nat (S k))%Z with (zfact (S k)).
  rewrite IZR_zfact. unfold Rdiv. rewrite Rmult_1_l. reflexivity.
Qed.
Lemma gamma_loop_overflow A k : (20 < k)%nat -> gamma_loop A k = Fail IntOverflow.
Proof.
  intros H. induction k as [|k IH]; [lia|]. cbn [gamma_loop].
  destruct (Nat.eq_dec k 20) as [->|Hn].
  - rewrite gamma_loop_ok by lia. cbn [bind]. rewrite lmul_fail; [reflexivity|]. vm_compute. reflexivity.
  - rewrite IH by lia. reflexivity.
Qed.

(** Gamma_m = I/m! + A Gamma_{m+1} *)
Lemma Gam_rec m w : vnorm w <> 0 ->
  Gam m w = (/ INR (fact m)) *ms mid +m skew w *m Gam (S m) w.
Proof.
  intros Hw. unfold Gam. rewrite !mmul_add_r, !mmul_scal_r, mmul_id_r, (mmul_assoc (skew w)), skew_cube_norm.
  rewrite (sc_rec (S m) (vnorm w) Hw).
  set (A := skew w). set (A2 := A *m A). clearbody A A2. ring3.
Qed.
Lemma mpow_comm A n : A *m mpow A n = mpow A n *m A.
Proof.
  induction n as [|n IH]; cbn [mpow]; [rewrite mmul_id_l, mmul_id_r; reflexivity|].
  rewrite mmul_assoc, IH. reflexivity.
Qed.
Lemma Gam_rest w m : vnorm w <> 0 ->
  Gam 0 w -m psumA (skew w) m = mpow (skew w) (S m) *m Gam (S m) w.
Proof.
  intros Hw. induction m as [|m IH].
  - cbn [psumA mpow]. rewrite Gam_rec by auto. rewrite mmul_id_l. simpl fact. simpl INR.
    rewrite Rinv_1, mscal_1. set (X := skew w *m _). clearbody X. ring3.
  - cbn [psumA]. transitivity (Gam 0 w -m psumA (skew w) m -m (/ INR (fact (S m))) *ms mpow (skew w) (S m)).
    { set (X := Gam 0 w). set (Y := psumA (skew w) m). set (Z := mpow (skew w) (S m)). clearbody X Y Z. ring3. }
    rewrite IH, (Gam_rec (S m)) by auto. rewrite mmul_add_r, mmul_scal_r, mmul_id_r, mmul_assoc.
    change (mpow (skew w) (S m) *m skew w) with (mpow (skew w) (S (S m))).
    set (X := mpow (skew w) (S (S m)) *m _). set (Z := mpow (skew w) (S m)). clearbody X Z. ring3.
Qed.

Lemma TOLERANCE_pos : 0 < TOLERANCE.
Proof. unfold TOLERANCE. apply Rinv_0_lt_compat. apply pow_lt; lra. Qed.

Lemma R0_eq w : vnorm w <> 0 ->
  mid +m (sin (vnorm w) / vnorm w) *ms skew w
  +m ((1 - cos (vnorm w)) / (vnorm w * vnorm w)) *ms skew w *m skew w = Gam 0 w.
Proof.
  intros Hw. unfold Gam. rewrite mmul_scal_l. cbn [sc fact]. simpl INR. rewrite Rinv_1, mscal_1. reflexivity.
Qed.

Lemma pow_m1_even k : (-1) ^ (2 * k) = 1.
Proof. rewrite pow_mult. replace ((-1) ^ 2) with 1 by ring. apply pow1. Qed.

Lemma Gamma_SO3_ok w m : (0 <= m <= 20)%Z -> TOLERANCE <= vnorm w ->
  Gamma_SO3 w m = Ok (Gam (Z.to_nat m) w).
Proof.
  intros Hm Hw. assert (vnorm w <> 0) as Hnz by (pose proof TOLERANCE_pos; lra).
  unfold Gamma_SO3. destruct (Z.leb_spec 0 m) as [_|]; [|lia]. simpl check. cbn [bind].
  destruct (Rlt_dec (vnorm w) TOLERANCE) as [|_]; [lra|].
  assert (m = 0 \/ m = 1 \/ m = 2 \/ 3 <= m)%Z as [->|[->|[->|Hm3]]] by lia.
  - rewrite R0_eq by auto. reflexivity.
  - f_equal. unfold Gam. change (Z.to_nat 1) with 1%nat. cbn [sc fact]. simpl INR.
    rewrite mmul_scal_l, Rinv_1, mscal_1. f_equal. f_equal. field; auto.
  - f_equal. unfold Gam. change (Z.to_nat 2) with 2%nat. cbn [sc fact]. simpl INR.
    rewrite mmul_scal_l. f_equal; [f_equal|]; f_equal; field; auto.
  - set (n := Z.to_nat m). assert (3 <= n <= 20)%nat as Hn by (unfold n; lia).
    assert (forall (X Y Z W : res M3), match m with 0%Z => X | 1%Z => Y | 2%Z => Z | _ => W end = W) as Hmatch.
    { intros. destruct m as [|p|p]; try lia. destruct p as [p|p|]; try lia; try reflexivity.
      destruct p as [p|p|]; try lia; reflexivity. }
    rewrite Hmatch. clear Hmatch.
    rewrite gamma_loop_ok by lia. cbn [bind]. rewrite R0_eq, Gam_rest, IZR_zfact by auto.
    unfold Rdiv. rewrite Rmult_1_l.
    rewrite (Gam_rec n) by auto.
    destruct (Nat.odd n) eqn:Ho; f_equal; f_equal.
    + apply Nat.odd_spec in Ho. destruct Ho as [k Hk].
      rewrite Hk. replace ((2 * k + 1 + 1) / 2)%nat with (k + 1)%nat by (apply (Nat.div_unique _ 2 _ O); lia).
      replace (S (2 * k + 1))%nat with (2 * k + 2)%nat by lia.
      rewrite mpow_even. set (G := Gam _ _).
      rewrite mmul_scal_l, mmul_scal_l, mmul_scal_r.
      rewrite (mmul_assoc (skew w) (skew w *m skew w)), (mmul_assoc (skew w) (skew w)), skew_cube_norm.
      rewrite mmul_scal_l, !mscal_scal. rewrite <- (mscal_1 (skew w *m G)) at 2. f_equal.
      set (t := vnorm w) in *. replace (2 * k + 1 + 1)%nat with (2 * k + 2)%nat by lia.
      rewrite !(pow_add _ _ 2), (pow_add (-1) k 1).
      assert (t ^ (2 * k) <> 0) by (apply pow_nonzero; auto).
      assert ((-1) ^ k * (-1) ^ k = 1).
      { rewrite <- pow_add. replace (k + k)%nat with (2 * k)%nat by lia. apply pow_m1_even. }
      transitivity ((-1) ^ k * (-1) ^ k); [field; auto|auto].
    + assert (Nat.even n = true) as He by (rewrite <- Nat.negb_odd, Ho; reflexivity).
      apply Nat.even_spec in He. destruct He as [k Hk].
      rewrite Hk. replace (2 * k / 2)%nat with k by (apply (Nat.div_unique _ 2 _ O); lia).
      replace (S (2 * k))%nat with (2 * k + 1)%nat by lia. rewrite mpow_odd. set (G := Gam _ _).
      rewrite mmul_scal_l, mscal_scal. rewrite <- (mscal_1 (skew w *m G)) at 2. f_equal.
      set (t := vnorm w) in *. assert (t ^ (2 * k) <> 0) by (apply pow_nonzero; auto).
      assert ((-1) ^ k * (-1) ^ k = 1).
      { rewrite <- pow_add. replace (k + k)%nat with (2 * k)%nat by lia. apply pow_m1_even. }
      transitivity ((-1) ^ k * (-1) ^ k); [field; auto|auto].
Qed.

Lemma Gamma_SO3_small w m : (0 <= m <= 20)%Z -> vnorm w < TOLERANCE ->
  Gamma_SO3 w m = Ok ((/ INR (fact (Z.to_nat m))) *ms mid).
Proof.
  intros Hm Hw. unfold Gamma_SO3. destruct (Z.leb_spec 0 m) as [_|]; [|lia]. simpl check. cbn [bind].
  destruct (Rlt_dec (vnorm w) TOLERANCE) as [_|]; [|lra].
  rewrite factorial_ok by lia. cbn [bind]. rewrite IZR_zfact. unfold Rdiv. rewrite Rmult_1_l. reflexivity.
Qed.
Lemma Gamma_SO3_neg w m : (m < 0)%Z -> Gamma_SO3 w m = Fail AssertFail.
Proof. intros H. unfold Gamma_SO3. destruct (Z.leb_spec 0 m); [lia|reflexivity]. Qed.
Lemma Gamma_SO3_big w m : (20 < m)%Z -> Gamma_SO3 w m = Fail IntOverflow.
Proof.
  intros H. unfold Gamma_SO3. destruct (Z.leb_spec 0 m) as [_|]; [|lia]. simpl check. cbn [bind].
  destruct (Rlt_dec (vnorm w) TOLERANCE) as [_|_].
  - rewrite factorial_overflow by lia. reflexivity.
  - assert (forall (X Y Z W : res M3), match m with 0%Z => X | 1%Z => Y | 2%Z => Z | _ => W end = W) as Hmatch.
    { intros. destruct m as [|p|p]; try lia. destruct p as [p|p|]; try lia; try reflexivity.
      destruct p as [p|p|]; try lia; reflexivity. }
    rewrite Hmatch. rewrite gamma_loop_overflow by lia. reflexivity.
Qed.

(** ** small-angle error *)
Lemma sc_bound m t : t <> 0 -> Rabs t <= / 10 -> Rabs (sc m t) <= 2.
Proof.
  intros Ht Hb.
  assert (0 <= t * t <= / 100) as Ht2.
  { split; [nra|]. rewrite <- (Rabs_right (t * t)) by nra. rewrite Rabs_mult.
    pose proof (Rabs_pos t). nra. }
  rewrite <- (is_series_unique _ _ (sc_series t Ht m)).
  assert (is_series (fun k => (t * t) ^ k) (/ (1 - t * t))) as Hg.
  { apply is_series_geom. rewrite Rabs_right by nra. lra. }
  assert (forall k, 0 <= Rabs (sterm m t k) <= (t * t) ^ k) as Hle.
  { intros k. split; [apply Rabs_pos|]. unfold sterm.
    unfold Rdiv. rewrite !Rabs_mult, pow_1_abs, Rmult_1_l.
    replace (t ^ (2 * k)) with ((t * t) ^ k) by (rewrite pow_mult; f_equal; ring).
    rewrite (Rabs_right ((t * t) ^ k)) by (apply Rle_ge, pow_le; tauto).
    rewrite <- (Rmult_1_r ((t * t) ^ k)) at 2. apply Rmult_le_compat_l; [apply pow_le; tauto|].
    rewrite Rabs_right.
    - rewrite <- Rinv_1. apply Rinv_le_contravar; [lra|].
      change 1 with (INR 1). apply le_INR. pose proof (lt_O_fact (2 * k + m)). lia.
    - apply Rle_ge, Rlt_le, Rinv_0_lt_compat. apply INR_fact_lt_0. }
  assert (ex_series (fun k => Rabs (sterm m t k))) as He.
  { apply (ex_series_le (fun k => Rabs (sterm m t k)) (fun k => (t * t) ^ k)).
    - intros k. unfold norm; simpl. unfold abs; simpl. rewrite Rabs_Rabsolu. apply Hle.
    - eexists; apply Hg. }
  eapply Rle_trans; [apply Series_Rabs; auto|].
  eapply Rle_trans; [apply (Series_le _ (fun k => (t * t) ^ k)); [apply Hle|eexists; apply Hg]|].
  rewrite (is_series_unique _ _ Hg).
  apply (Rmult_le_reg_l (1 - t * t)); [lra|]. rewrite Rinv_r by lra. lra.
Qed.

Lemma comp_le_norm w i : (i < 3)%nat -> Rabs (vget w i) <= vnorm w.
Proof.
  intros Hi. apply Rsqr_incr_0_var; [|apply vnorm_nonneg].
  rewrite <- Rsqr_abs. unfold Rsqr. rewrite vnorm_sq. unfold vdot. destruct w as [a b c]; simpl.
  destruct i as [|[|[|i]]]; simpl; try lia; nra.
Qed.
Lemma skew_entry_bound w i j : (i < 3)%nat -> (j < 3)%nat -> Rabs (mget (skew w) i j) <= vnorm w.
Proof.
  intros Hi Hj. pose proof (vnorm_nonneg w).
  pose proof (comp_le_norm w 0 ltac:(lia)). pose proof (comp_le_norm w 1 ltac:(lia)). pose proof (comp_le_norm w 2 ltac:(lia)).
  simpl in *.
  destruct i as [|[|[|i]]]; try lia; destruct j as [|[|[|j]]]; try lia; simpl;
    rewrite ?Rabs_Ropp, ?Rabs_R0; auto.
Qed.
Lemma skew2_entry_bound w i j : (i < 3)%nat -> (j < 3)%nat ->
  Rabs (mget (skew w *m skew w) i j) <= 3 * (vnorm w * vnorm w).
Proof.
  intros Hi Hj. rewrite mget_mul by auto.
  assert (forall a b, (a < 3)%nat -> (b < 3)%nat -> forall c d, (c < 3)%nat -> (d < 3)%nat ->
    Rabs (mget (skew w) a b * mget (skew w) c d) <= vnorm w * vnorm w) as H.
  { intros. rewrite Rabs_mult. apply Rmult_le_compat; try apply Rabs_pos; apply skew_entry_bound; auto. }
  pose proof (H i 0 Hi ltac:(lia) 0 j ltac:(lia) Hj)%nat as H0.
  pose proof (H i 1 Hi ltac:(lia) 1 j ltac:(lia) Hj)%nat as H1.
  pose proof (H i 2 Hi ltac:(lia) 2 j ltac:(lia) Hj)%nat as H2.
  eapply Rle_trans; [apply Rabs_triang|]. eapply Rle_trans; [apply Rplus_le_compat_r, Rabs_triang|]. lra.
Qed.

(** The truncated value returned below the tolerance is within 3 theta of the series. *)
Lemma Gamma_small_error w m : vnorm w < TOLERANCE ->
  exists G, matrix_series3 (fun n => / INR (fact (n + m))) (skew w) G /\
    forall i j, (i < 3)%nat -> (j < 3)%nat ->
      Rabs (mget G i j - mget ((/ INR (fact m)) *ms mid) i j) <= 3 * vnorm w.
Proof.
  intros Hw. destruct (Req_dec (vnorm w) 0) as [E|E].
  - rewrite E. apply vnorm_0_inv in E. subst w. eexists; split; [apply Gam_series_0|].
    intros. rewrite Rminus_eq_0, Rabs_R0. lra.
  - exists (Gam m w). split; [apply Gam_series; auto|]. intros i j Hi Hj.
    unfold Gam. rewrite !mget_add, !mget_scal.
    replace (_ - _) with (sc (S m) (vnorm w) * mget (skew w) i j
      + sc (S (S m)) (vnorm w) * mget (skew w *m skew w) i j) by ring.
    pose proof (vnorm_nonneg w) as Hp.
    assert (TOLERANCE <= / 1000) as Ht.
    { unfold TOLERANCE. apply Rinv_le_contravar; [lra|]. simpl. lra. }
    assert (Rabs (vnorm w) <= / 10) as Hb by (rewrite Rabs_right by lra; lra).
    pose proof (sc_bound (S m) _ E Hb). pose proof (sc_bound (S (S m)) _ E Hb).
    pose proof (skew_entry_bound w i j Hi Hj). pose proof (skew2_entry_bound w i j Hi Hj).
    eapply Rle_trans; [apply Rabs_triang|]. rewrite !Rabs_mult.
    assert (Rabs (sc (S m) (vnorm w)) * Rabs (mget (skew w) i j) <= 2 * vnorm w)
      by (apply Rmult_le_compat; auto using Rabs_pos).
    assert (Rabs (sc (S (S m)) (vnorm w)) * Rabs (mget (skew w *m skew w) i j) <= 2 * (3 * (vnorm w * vnorm w)))
      by (apply Rmult_le_compat; auto using Rabs_pos).
    nra.
Qed.

(** ** Exp and Jacobians as total functions *)
Definition expSO3 (w : V3) : M3 := if Rlt_dec (vnorm w) TOLERANCE then mid else Gam 0 w.
Definition jl (w : V3) : M3 := if Rlt_dec (vnorm w) TOLERANCE then mid else Gam 1 w.
Definition g2 (w : V3) : M3 := if Rlt_dec (vnorm w) TOLERANCE then (1 / 2) *ms mid else Gam 2 w.

Lemma Gamma0 w : Gamma_SO3 w 0 = Ok (expSO3 w).
Proof.
  unfold expSO3. destruct (Rlt_dec (vnorm w) TOLERANCE).
  - rewrite Gamma_SO3_small by (auto; lia). simpl. rewrite Rinv_1, mscal_1. reflexivity.
  - rewrite Gamma_SO3_ok by (lra || lia). reflexivity.
Qed.
Lemma Gamma1 w : Gamma_SO3 w 1 = Ok (jl w).
Proof.
  unfold jl. destruct (Rlt_dec (vnorm w) TOLERANCE).
  - rewrite Gamma_SO3_small by (auto; lia). simpl. rewrite Rinv_1, mscal_1. reflexivity.
  - rewrite Gamma_SO3_ok by (lra || lia). reflexivity.
Qed.
Lemma Gamma2 w : Gamma_SO3 w 2 = Ok (g2 w).
Proof.
  unfold g2. destruct (Rlt_dec (vnorm w) TOLERANCE).
  - rewrite Gamma_SO3_small by (auto; lia). simpl. f_equal. f_equal. lra.
  - rewrite Gamma_SO3_ok by (lra || lia). reflexivity.
Qed.

Lemma Gam_neg m w : Gam m (vneg w) = mtr (Gam m w).
Proof.
  unfold Gam. rewrite vnorm_neg, !mtr_add, !mtr_scal, mtr_id, mtr_mul, skew_tr.
  f_equal.
Qed.

Lemma poly_det (x y z a b : R) :
  det3 (mkM (1 - b * (y * y + z * z)) (b * (x * y) - a * z) (b * (x * z) + a * y)
            (b * (x * y) + a * z) (1 - b * (x * x + z * z)) (b * (y * z) - a * x)
            (b * (x * z) - a * y) (b * (y * z) + a * x) (1 - b * (x * x + y * y)))
  = (1 - b * (x * x + y * y + z * z)) * (1 - b * (x * x + y * y + z * z)) + a * a * (x * x + y * y + z * z).
Proof. u3. ring. Qed.

(** (c0 I + a A + b A^2)(d0 I + c A + d A^2) with A^3 = -t2 A *)
Lemma poly_mul w t2 a b c d : t2 = vdot w w ->
  (mid +m a *ms skew w +m b *ms (skew w *m skew w)) *m (mid +m c *ms skew w +m d *ms (skew w *m skew w))
  = mid +m (a + c - (a * d + b * c) * t2) *ms skew w
    +m (b + d + a * c - b * d * t2) *ms (skew w *m skew w).
Proof.
  intros ->. pose proof (skew_cube w) as H3.
  set (A := skew w) in *. set (B := A *m A) in *.
  assert (A *m A = B) as H0 by reflexivity.
  assert (B *m A = (- vdot w w) *ms A) as H1 by exact H3.
  assert (A *m B = (- vdot w w) *ms A) as H2 by (unfold B; rewrite mmul_assoc; exact H3).
  assert (B *m B = (- vdot w w) *ms B) as H4.
  { unfold B at 2. rewrite mmul_assoc, H1, mmul_scal_l. reflexivity. }
  rewrite !mmul_add_l, !mmul_add_r, !mmul_scal_l, !mmul_scal_r, !mmul_id_l, !mmul_id_r, H0, H1, H2, H4.
  clearbody A B. generalize (vdot w w). intros q. clear. ring3.
Qed.

Lemma poly_SO3 w a b t : t * t = vdot w w -> 2 * b - a * a - b * b * (t * t) = 0 ->
  (1 - b * (t * t)) * (1 - b * (t * t)) + a * a * (t * t) = 1 ->
  SO3 (mid +m a *ms skew w +m b *ms (skew w *m skew w)).
Proof.
  intros Ht H1 H2. split.
  - rewrite !mtr_add, !mtr_scal, mtr_id, mtr_mul, skew_tr, skew_neg.
    replace (a *ms (-1 *ms skew w)) with ((- a) *ms skew w) by (rewrite mscal_scal; f_equal; ring).
    replace (-1 *ms skew w *m (-1 *ms skew w)) with (skew w *m skew w)
      by (rewrite mmul_scal_l, mmul_scal_r, mscal_scal; replace (-1 * -1) with 1 by ring; rewrite mscal_1; reflexivity).
    rewrite (poly_mul w (t * t)) by auto.
    replace (- a + a - (- a * b + b * a) * (t * t)) with 0 by ring.
    replace (b + b + - a * a - b * b * (t * t)) with 0 by lra.
    rewrite !mscal_0, !madd_zero_r. reflexivity.
  - rewrite <- H2, Ht. destruct w as [x y z]. unfold vdot; cbn [v0 v1 v2].
    rewrite <- poly_det. f_equal. unfold skew; cbn [v0 v1 v2]. ring3.
Qed.

Lemma Gam0_SO3 w : vnorm w <> 0 -> SO3 (Gam 0 w).
Proof.
  intros Hw. unfold Gam. cbn [sc fact]. simpl INR. rewrite Rinv_1, mscal_1.
  set (t := vnorm w) in *. pose proof (sin2_cos2 t) as Hsc. unfold Rsqr in Hsc.
  apply (poly_SO3 w _ _ t).
  - apply vnorm_sq.
  - assert (sin t * sin t = 1 - cos t * cos t) as Hs by lra.
    replace (_ - _ - _) with ((1 - cos t * cos t - sin t * sin t) / (t * t)) by (field; auto).
    rewrite Hs. field; auto.
  - rewrite <- Hsc. field; auto.
Qed.
Lemma expSO3_SO3 w : SO3 (expSO3 w).
Proof.
  unfold expSO3. destruct (Rlt_dec (vnorm w) TOLERANCE); [apply SO3_id|].
  apply Gam0_SO3. pose proof TOLERANCE_pos; lra.
Qed.
Lemma expSO3_neg w : expSO3 (vneg w) = mtr (expSO3 w).
Proof.
  unfold expSO3. rewrite vnorm_neg. destruct (Rlt_dec (vnorm w) TOLERANCE).
  - rewrite mtr_id; reflexivity.
  - apply Gam_neg.
Qed.
Lemma jl_neg w : jl (vneg w) = mtr (jl w).
Proof.
  unfold jl. rewrite vnorm_neg. destruct (Rlt_dec (vnorm w) TOLERANCE).
  - rewrite mtr_id; reflexivity.
  - apply Gam_neg.
Qed.
Lemma Gam_axis m w : Gam m w *v w = (/ INR (fact m)) *s w.
Proof.
  unfold Gam. rewrite !mv_add_l, !mv_scal_l, mv_mul, skew_self, mv_zero_r, !vscal_zero, !vadd_zero_r, mv_id. reflexivity.
Qed.
Lemma expSO3_axis w : expSO3 w *v w = w.
Proof.
  unfold expSO3. destruct (Rlt_dec (vnorm w) TOLERANCE); [apply mv_id|].
  rewrite Gam_axis. simpl. rewrite Rinv_1, vscal_1. reflexivity.
Qed.
Lemma skew_jl w : TOLERANCE <= vnorm w -> skew w *m jl w = expSO3 w -m mid.
Proof.
  intros Hw. unfold jl, expSO3. destruct (Rlt_dec (vnorm w) TOLERANCE); [lra|].
  rewrite (Gam_rec 0) by (pose proof TOLERANCE_pos; lra). simpl. rewrite Rinv_1, mscal_1.
  set (X := skew w *m _). clearbody X. ring3.
Qed.
Lemma skew_jl_small w : vnorm w < TOLERANCE -> forall i j, (i < 3)%nat -> (j < 3)%nat ->
  Rabs (mget (skew w *m jl w -m (expSO3 w -m mid)) i j) <= vnorm w.
Proof.
  intros Hw i j Hi Hj. unfold jl, expSO3. destruct (Rlt_dec (vnorm w) TOLERANCE); [|lra].
  rewrite mmul_id_r, msub_diag.
  replace (skew w -m mzero) with (skew w) by ring3. apply skew_entry_bound; auto.
Qed.
