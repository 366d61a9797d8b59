(** C53: the covariance transition matrix solves the linearised error dynamics. *)
From Coq Require Import Reals ZArith List Bool Lia Lra FunctionalExtensionality.
From Coquelicot Require Import Coquelicot.
From Verif Require Import Res Vec3 Mat LieGroup MatInv Psd Spec LieSO3 LieSEK RobotState StateProofs Inekf SpecFilter
  InekfProofs Imu Propagation SpecProp Blk PropagationProofs PropagationThms PropagationExact PropagationLog.
Import ListNotations.
Local Open Scope R_scope.

Lemma mget_tr A i j : (i < 3)%nat -> (j < 3)%nat -> mget (mtr A) i j = mget A j i.
Proof. destruct i as [|[|[|i]]], j as [|[|[|j]]]; try lia; reflexivity. Qed.
Lemma mderiv_tr f t D : mderiv f t D -> mderiv (fun x => mtr (f x)) t (mtr D).
Proof.
  intros H i j Hi Hj. rewrite mget_tr by auto.
  replace (fun x => mget (mtr (f x)) i j) with (fun x => mget (f x) j i); [apply H; auto|].
  apply functional_extensionality; intros; rewrite mget_tr by auto; reflexivity.
Qed.
Lemma mderiv_neg f t D : mderiv f t D -> mderiv (fun x => mneg (f x)) t (mneg D).
Proof.
  intros H. apply (mderiv_ext (fun x => (-1) *ms mid *m f x)); [intros; ring3|].
  apply (mderiv_eq _ _ ((-1) *ms mid *m D)); [ring3|]. apply mderiv_mul_l; auto.
Qed.
Lemma mderiv_sub f g t D E : mderiv f t D -> mderiv g t E -> mderiv (fun x => f x -m g x) t (D -m E).
Proof.
  intros H1 H2. apply (mderiv_ext (fun x => f x +m mneg (g x))); [intros; ring3|].
  apply (mderiv_eq _ _ (D +m mneg E)); [ring3|]. apply mderiv_add; auto. apply mderiv_neg; auto.
Qed.

Section Exact.
Variables (w a : V3).
Let th := vnorm w.
Hypothesis Hth : th <> 0.
Let wx := skew w.
Let ax := skew a.
Let E (t : R) := mtr (eR w t).

Lemma E_deriv t : mderiv E t (mneg wx *m E t).
Proof.
  apply (mderiv_eq _ _ (mtr (eR w t *m skew w))).
  - unfold E, wx. rewrite mtr_mul, skew_tr. unfold eR. rewrite pw_tr. unfold pw, skew. ring3.
  - apply mderiv_tr, eR_deriv; auto.
Qed.
Lemma E_J1 t : E t *m J1 w t = mtr (J1 w t).
Proof.
  unfold E, eR, J1. rewrite !pw_tr, pw_mul. fold th.
  assert (cos (th * t) * cos (th * t) = 1 - sin (th * t) * sin (th * t)) as C
    by (pose proof (sin2_cos2 (th * t)) as H; unfold Rsqr in H; lra).
  apply pw_ext; [ring| |].
  - apply (Rmult_eq_reg_r (th ^ 2)); [|apply pow_nonzero; auto]. field_simplify; auto.
    replace (cos (th * t) ^ 2) with (cos (th * t) * cos (th * t)) by ring. rewrite C. field; auto.
  - apply (Rmult_eq_reg_r (th ^ 3)); [|apply pow_nonzero; auto]. field_simplify; auto.
Qed.
Lemma E_alt t : E t = mid -m wx *m mtr (J1 w t).
Proof.
  unfold E, eR, J1, wx. rewrite !pw_tr. fold th.
  replace (mid -m skew w *m pw w t (- ((1 - cos (th * t)) / th ^ 2)) ((th * t - sin (th * t)) / th ^ 3))
    with (pw w 1 0 0 -m pw w 0 1 0 *m pw w t (- ((1 - cos (th * t)) / th ^ 2)) ((th * t - sin (th * t)) / th ^ 3))
    by (unfold pw, skew; ring3).
  rewrite pw_mul, pw_sub. fold th. apply pw_ext; [ring|field; auto|field; auto].
Qed.
Lemma eR_E t : eR w t *m E t = mid.
Proof.
  unfold E, eR. rewrite pw_tr, pw_mul. fold th.
  assert (cos (th * t) * cos (th * t) = 1 - sin (th * t) * sin (th * t)) as C
    by (pose proof (sin2_cos2 (th * t)) as H; unfold Rsqr in H; lra).
  replace mid with (pw w 1 0 0) by (unfold pw, skew; ring3). apply pw_ext; [ring| |].
  - field; auto.
  - apply (Rmult_eq_reg_r (th ^ 2)); [|apply pow_nonzero; auto]. field_simplify; auto.
    replace (cos (th * t) ^ 2) with (cos (th * t) * cos (th * t)) by ring. rewrite C. field; auto.
Qed.
Lemma E_eR t : E t *m eR w t = mid.
Proof.
  rewrite <- (eR_E t). unfold E, eR. rewrite pw_tr, !pw_mul. apply pw_ext; ring.
Qed.
Lemma eR_SO3 t : t <> 0 -> SO3 (eR w t).
Proof.
  intros Ht. rewrite <- eR_Gam by auto. apply Gam0_SO3. rewrite vnorm_scal. fold th.
  apply Rmult_integral_contrapositive. split; auto. apply Rabs_no_R0; auto.
Qed.
Lemma eR_0 : eR w 0 = mid.
Proof. unfold eR. rewrite Rmult_0_r, sin_0, cos_0. unfold pw. apply M3_eq; u3; field; auto. Qed.
Lemma eR_SO3' t : SO3 (eR w t).
Proof. destruct (Req_dec t 0) as [->|N]; [rewrite eR_0; apply SO3_id|apply eR_SO3; auto]. Qed.
Lemma E_skew t u : E t *m skew (eR w t *v u) = skew u *m E t.
Proof.
  rewrite SO3_skew by apply eR_SO3'. rewrite !mmul_assoc, E_eR, mmul_id_l. reflexivity.
Qed.

Definition c21 t := (sin (th * t) - th * t * cos (th * t)) / (th * th * th).
Definition c22 t := (cos (2 * (th * t)) - 4 * cos (th * t) + 3) / (4 * (th * th * th * th)).
Definition c23 t := (4 * sin (th * t) + sin (2 * (th * t)) - 4 * (th * t * cos (th * t)) - 2 * (th * t)) / (4 * (th * th * th * th * th)).
Definition c24 t := (th * t * (th * t) - 2 * (th * t * sin (th * t)) - 2 * cos (th * t) + 2) / (2 * (th * th * th * th)).
Definition c25 t := (6 * (th * t) - 8 * sin (th * t) + sin (2 * (th * t))) / (4 * (th * th * th * th * th)).
Definition c26 t := (2 * (th * t * (th * t)) - 4 * (th * t * sin (th * t)) - cos (2 * (th * t)) + 1) / (4 * (th * th * th * th * th * th)).
Definition Mf t : M3 :=
  ax *m mtr (J2 w t) +m c21 t *ms (wx *m ax) -m c22 t *ms (wx *m ax *m wx) +m c23 t *ms (wx *m ax *m (wx *m wx))
  +m c24 t *ms (wx *m wx *m ax) -m c25 t *ms (wx *m wx *m ax *m wx) +m c26 t *ms (wx *m wx *m ax *m (wx *m wx)).
Definition c31 t := (th * t * sin (th * t) + 2 * cos (th * t) - 2) / (th * th * th * th).
Definition c32 t := (6 * (th * t) - 8 * sin (th * t) + sin (2 * (th * t))) / (8 * (th * th * th * th * th)).
Definition c33 t := (2 * (th * t * (th * t)) + 8 * (th * t * sin (th * t)) + 16 * cos (th * t) + cos (2 * (th * t)) - 17) / (8 * (th * th * th * th * th * th)).
Definition c34 t := (th * t * (th * t) * (th * t) + 6 * (th * t) - 12 * sin (th * t) + 6 * (th * t * cos (th * t))) / (6 * (th * th * th * th * th)).
Definition c35 t := (6 * (th * t * (th * t)) + 16 * cos (th * t) - cos (2 * (th * t)) - 15) / (8 * (th * th * th * th * th * th)).
Definition c36 t := (4 * (th * t * (th * t) * (th * t)) + 6 * (th * t) - 24 * sin (th * t) - 3 * sin (2 * (th * t)) + 24 * (th * t * cos (th * t))) / (24 * (th * th * th * th * th * th * th)).
Definition Nf t : M3 :=
  ax *m mtr (J3 w t) -m c31 t *ms (wx *m ax) -m c32 t *ms (wx *m ax *m wx) -m c33 t *ms (wx *m ax *m (wx *m wx))
  +m c34 t *ms (wx *m wx *m ax) -m c35 t *ms (wx *m wx *m ax *m wx) +m c36 t *ms (wx *m wx *m ax *m (wx *m wx)).

Lemma sin2 x : sin (2 * x) = 2 * sin x * cos x. Proof. apply sin_2a. Qed.
Lemma cos2 x : cos (2 * x) = 1 - 2 * sin x * sin x. Proof. apply cos_2a_sin. Qed.
Lemma cc x : cos x * cos x = 1 - sin x * sin x.
Proof. pose proof (sin2_cos2 x) as H. unfold Rsqr in H. lra. Qed.
Ltac dv := apply is_derive_Reals; auto_derive; [auto|].
Ltac trig := rewrite ?sin2, ?cos2; 
  match goal with |- ?l = ?r => apply (Rminus_diag_uniq l r) end;
  match goal with |- context [cos (th * ?x)] => pose proof (cc (th * x)) as HC; set (c := cos (th * x)) in *; set (s := sin (th * x)) in * end;
  field_simplify; auto.

Let s1 t := sin (th * t) / th.
Let s2 t := (1 - cos (th * t)) / th ^ 2.
Let j2 t := (th * t - sin (th * t)) / th ^ 3.
(** eR ax J1^T expanded *)
Lemma eR_ax_J1 t : eR w t *m ax *m mtr (J1 w t) =
  ax *m mtr (J1 w t) +m (s1 t * t) *ms (wx *m ax) -m (s1 t * s2 t) *ms (wx *m ax *m wx) +m (s1 t * j2 t) *ms (wx *m ax *m (wx *m wx))
  +m (s2 t * t) *ms (wx *m wx *m ax) -m (s2 t * s2 t) *ms (wx *m wx *m ax *m wx) +m (s2 t * j2 t) *ms (wx *m wx *m ax *m (wx *m wx)).
Proof.
  unfold eR, J1. rewrite pw_tr. fold th. fold (s1 t) (s2 t) (j2 t). unfold pw. fold wx.
  generalize (s1 t) (s2 t) (j2 t) ax wx. intros p q r A W.
  rewrite !mmul_add_l, !mmul_add_r, !mmul_scal_l, !mmul_scal_r, !mmul_id_l, !mmul_id_r.
  rewrite ?mmul_scal_l, ?mmul_scal_r, ?mscal_scal, ?mmul_id_l, ?mmul_id_r.
  rewrite ?mmul_assoc.
  generalize (W *m A) (W *m A *m W) (W *m A *m W *m W) (W *m W *m A) (W *m W *m A *m W) (W *m W *m A *m W *m W) (A *m W) (A *m W *m W).
  intros. ring3.
Qed.

Ltac trg t := rewrite ?sin2, ?cos2;
  let HC := fresh in pose proof (cc (th * t)) as HC;
  set (c := cos (th * t)) in *; set (s := sin (th * t)) in *.
Lemma c21_d t : derivable_pt_lim c21 t (s1 t * t).
Proof. unfold c21, s1. dv. field; auto. Qed.
Lemma c22_d t : derivable_pt_lim c22 t (s1 t * s2 t).
Proof. unfold c22, s1, s2. dv. trg t. field; auto. Qed.
Lemma c23_d t : derivable_pt_lim c23 t (s1 t * j2 t).
Proof.
  unfold c23, s1, j2. dv. trg t. field_simplify_eq; auto; try nra.
Qed.
Lemma c24_d t : derivable_pt_lim c24 t (s2 t * t).
Proof. unfold c24, s2. dv. trg t. field; auto. Qed.
Lemma c25_d t : derivable_pt_lim c25 t (s2 t * s2 t).
Proof. unfold c25, s2. dv. trg t. field_simplify_eq; auto; try nra. Qed.
Lemma c26_d t : derivable_pt_lim c26 t (s2 t * j2 t).
Proof. unfold c26, s2, j2. dv. trg t. field_simplify_eq; auto; try nra. Qed.
Lemma c31_d t : derivable_pt_lim c31 t (- c21 t).
Proof. unfold c31, c21. dv. trg t. field; auto. Qed.
Lemma c32_d t : derivable_pt_lim c32 t (c22 t).
Proof. unfold c32, c22. dv. trg t. field_simplify_eq; auto; try nra. Qed.
Lemma c33_d t : derivable_pt_lim c33 t (- c23 t).
Proof. unfold c33, c23. dv. trg t. field_simplify_eq; auto; try nra. Qed.
Lemma c34_d t : derivable_pt_lim c34 t (c24 t).
Proof. unfold c34, c24. dv. trg t. field_simplify_eq; auto; try nra. Qed.
Lemma c35_d t : derivable_pt_lim c35 t (c25 t).
Proof. unfold c35, c25. dv. trg t. field_simplify_eq; auto; try nra. Qed.
Lemma c36_d t : derivable_pt_lim c36 t (c26 t).
Proof. unfold c36, c26. dv. trg t. field_simplify_eq; auto; try nra. Qed.
Lemma Mf_deriv t : mderiv Mf t (eR w t *m ax *m mtr (J1 w t)).
Proof.
  rewrite eR_ax_J1. unfold Mf. repeat (apply mderiv_add || apply mderiv_sub).
  - apply mderiv_mul_l, mderiv_tr, J2_deriv; auto.
  - apply mderiv_scal, c21_d.
  - apply mderiv_scal, c22_d.
  - apply mderiv_scal, c23_d.
  - apply mderiv_scal, c24_d.
  - apply mderiv_scal, c25_d.
  - apply mderiv_scal, c26_d.
Qed.
Lemma Nf_deriv t : mderiv Nf t (Mf t).
Proof.
  apply (mderiv_eq _ _ (ax *m mtr (J2 w t) -m (- c21 t) *ms (wx *m ax) -m c22 t *ms (wx *m ax *m wx) -m (- c23 t) *ms (wx *m ax *m (wx *m wx))
  +m c24 t *ms (wx *m wx *m ax) -m c25 t *ms (wx *m wx *m ax *m wx) +m c26 t *ms (wx *m wx *m ax *m (wx *m wx)))).
  { unfold Mf. generalize (ax *m mtr (J2 w t)) (wx *m ax) (wx *m ax *m wx) (wx *m ax *m (wx *m wx)). intros. f_equal. f_equal. f_equal. ring3. }
  unfold Nf. repeat (apply mderiv_add || apply mderiv_sub).
  - apply mderiv_mul_l, mderiv_tr, J3_deriv; auto.
  - apply mderiv_scal, c31_d.
  - apply mderiv_scal, c32_d.
  - apply mderiv_scal, c33_d.
  - apply mderiv_scal, c34_d.
  - apply mderiv_scal, c35_d.
  - apply mderiv_scal, c36_d.
Qed.

(** the exact solution *)
Variable K : nat.
Hypothesis HK : (2 <= K)%nat.
Definition FE (t : R) (i j : nat) : M3 :=
  if (j <=? K)%nat then
    if Nat.eqb i j then E t
    else match i, j with
      | 1, 0 => mneg (E t *m skew (J1 w t *v a))
      | 2, 0 => mneg (E t *m skew (J2 w t *v a))
      | 2, 1 => t *ms E t
      | _, _ => mzero
      end%nat
  else if Nat.eqb i j then mid
    else if Nat.eqb j (K + 1) then
      match i with
      | 0 => mneg (mtr (J1 w t)) | 1 => E t *m Mf t | 2 => E t *m Nf t | _ => mzero end%nat
    else match i with
      | 1 => mneg (mtr (J1 w t)) | 2 => mneg (E t *m J2 w t) | _ => mzero end%nat.
Let A (i j : nat) : M3 :=
    if Nat.eqb i j && (i <=? K)%nat then mneg (crossm w)
    else match i with
      | 0 => if Nat.eqb j (K + 1) then mneg mid else mzero
      | 1 => if Nat.eqb j 0 then mneg (crossm a) else if Nat.eqb j (K + 2) then mneg mid else mzero
      | 2 => if Nat.eqb j 1 then mid else mzero
      | _ => mzero end%nat.
Lemma A_row i g : (i < 3 + K)%nat -> msum (3 + K) (fun k => A i k *m g k) =
  match i with
  | 0 => mneg wx *m g 0 -m g (K + 1)
  | 1 => mneg wx *m g 1 -m ax *m g 0 -m g (K + 2)
  | 2 => mneg wx *m g 2 +m g 1
  | _ => if (i <=? K)%nat then mneg wx *m g i else mzero end%nat.
Proof.
  intros Hi. destruct i as [|[|[|i]]].
  - rewrite (msum_two _ 0 (K + 1)); [|intros k Hk H1 H2|lia|lia].
    + unfold A. caseb. cbn [andb]. change (crossm w) with wx. ring3.
    + unfold A. caseb. cbn [andb]. apply mmul_zero_l.
  - replace (3 + K)%nat with ((2 + K) + 1)%nat by lia. rewrite msum_app.
    rewrite (msum_two (2 + K) 0 1); [|intros k Hk H1 H2|lia|lia].
    + rewrite (msum_delta _ 0); [|intros; lia|lia]. replace (2 + K + 0)%nat with (K + 2)%nat by lia.
      unfold A. caseb. cbn [andb]. change (crossm w) with wx. change (crossm a) with ax. cbn [Nat.eqb]. ring3.
    + unfold A. caseb; cbn [andb]; apply mmul_zero_l.
  - rewrite (msum_two _ 1 2); [|intros k Hk H1 H2|lia|lia].
    + unfold A. caseb. cbn [andb Nat.eqb]. change (crossm w) with wx. ring3.
    + unfold A. caseb. cbn [andb]. apply mmul_zero_l.
  - destruct (Nat.leb_spec (S (S (S i))) K).
    + rewrite (msum_delta _ (S (S (S i)))); [|intros k Hk H1|lia].
      * unfold A. caseb. cbn [andb]. reflexivity.
      * unfold A. caseb. cbn [andb]. apply mmul_zero_l.
    + apply msum_zero. intros k Hk. unfold A. caseb; cbn [andb]; apply mmul_zero_l.
Qed.
Lemma mderiv_scal' (c : R -> R) f t c' D : derivable_pt_lim c t c' -> mderiv f t D ->
  mderiv (fun x => c x *ms f x) t (c' *ms f t +m c t *ms D).
Proof.
  intros H1 H2. apply (mderiv_ext (fun x => (c x *ms mid) *m f x)); [intros; ring3|].
  apply (mderiv_eq _ _ ((c' *ms mid) *m f t +m (c t *ms mid) *m D)); [ring3|].
  apply (mderiv_mul (fun x => c x *ms mid)); auto. apply mderiv_scal; auto.
Qed.

Lemma FE_bias t q j : (q = K + 1 \/ q = K + 2)%nat -> (j < 3 + K)%nat -> FE t q j = if Nat.eqb q j then mid else mzero.
Proof.
  intros Hq Hj. unfold FE. destruct (Nat.leb_spec j K).
  - destruct (Nat.eqb_spec q j); [lia|]. destruct q as [|[|[|q]]]; try lia. reflexivity.
  - destruct (Nat.eqb_spec q j); [reflexivity|]. destruct q as [|[|[|q]]]; try lia.
    destruct (Nat.eqb_spec j (K + 1)); reflexivity.
Qed.
Lemma FE_deriv t i j : (i < 3 + K)%nat -> (j < 3 + K)%nat ->
  mderiv (fun x => FE x i j) t (msum (3 + K) (fun k => A i k *m FE t k j)).
Proof.
  intros Hi Hj. rewrite A_row by auto. rewrite (FE_bias t (K + 1)), (FE_bias t (K + 2)) by lia.
  destruct (Nat.leb_spec j K) as [Lj|Lj].
  - destruct i as [|[|[|i]]].
    + destruct j as [|j].
      * unfold FE. caseb. cbn [Nat.eqb]. apply (mderiv_eq _ _ (mneg wx *m E t)); [ring3|apply E_deriv].
      * unfold FE. caseb. cbn [Nat.eqb]. apply (mderiv_eq _ _ mzero); [ring3|apply mderiv_const].
    + destruct j as [|[|j]].
      * unfold FE. caseb. cbn [Nat.eqb].
        apply (mderiv_eq _ _ (mneg ((mneg wx *m E t) *m skew (J1 w t *v a) +m E t *m skew (eR w t *v a)))).
        -- rewrite E_skew. fold ax. ring3.
        -- apply mderiv_neg. apply (mderiv_mul E); [apply E_deriv|]. apply mderiv_skew, vderiv_mv, J1_deriv; auto.
      * unfold FE. caseb. cbn [Nat.eqb]. apply (mderiv_eq _ _ (mneg wx *m E t)); [ring3|apply E_deriv].
      * unfold FE. caseb. cbn [Nat.eqb]. apply (mderiv_eq _ _ mzero); [ring3|apply mderiv_const].
    + destruct j as [|[|[|j]]].
      * unfold FE. caseb. cbn [Nat.eqb].
        apply (mderiv_eq _ _ (mneg ((mneg wx *m E t) *m skew (J2 w t *v a) +m E t *m skew (J1 w t *v a)))); [ring3|].
        apply mderiv_neg. apply (mderiv_mul E); [apply E_deriv|]. apply mderiv_skew, vderiv_mv, J2_deriv; auto.
      * unfold FE. caseb. cbn [Nat.eqb].
        apply (mderiv_eq _ _ (1 *ms E t +m t *ms (mneg wx *m E t))); [ring3|].
        apply (mderiv_scal' (fun x => x)); [apply derivable_pt_lim_id|apply E_deriv].
      * unfold FE. caseb. cbn [Nat.eqb]. apply (mderiv_eq _ _ (mneg wx *m E t)); [ring3|apply E_deriv].
      * unfold FE. caseb. cbn [Nat.eqb]. apply (mderiv_eq _ _ mzero); [ring3|apply mderiv_const].
    + destruct (Nat.eq_dec (S (S (S i))) j) as [<-|N].
      * unfold FE. caseb. apply (mderiv_eq _ _ (mneg wx *m E t)); [ring3|apply E_deriv].
      * unfold FE. caseb; apply (mderiv_eq _ _ mzero); try apply mderiv_const; ring3.
  - assert (j = K + 1 \/ j = K + 2)%nat as [-> | ->] by lia.
    + destruct i as [|[|[|i]]].
      * unfold FE. caseb. apply (mderiv_eq _ _ (mneg (E t))).
        -- rewrite E_alt. ring3.
        -- apply mderiv_neg, mderiv_tr, J1_deriv; auto.
      * unfold FE. caseb. apply (mderiv_eq _ _ ((mneg wx *m E t) *m Mf t +m E t *m (eR w t *m ax *m mtr (J1 w t)))).
        -- rewrite !mmul_assoc, E_eR, mmul_id_l. generalize (mneg wx *m E t *m Mf t). intros B. ring3.
        -- apply (mderiv_mul E); [apply E_deriv|apply Mf_deriv].
      * unfold FE. caseb. apply (mderiv_eq _ _ ((mneg wx *m E t) *m Nf t +m E t *m Mf t)).
        -- rewrite !mmul_assoc. reflexivity.
        -- apply (mderiv_mul E); [apply E_deriv|apply Nf_deriv].
      * unfold FE. caseb; apply (mderiv_eq _ _ mzero); try apply mderiv_const; ring3.
    + destruct i as [|[|[|i]]].
      * unfold FE. caseb. apply (mderiv_eq _ _ mzero); [ring3|apply mderiv_const].
      * unfold FE. caseb. apply (mderiv_eq _ _ (mneg (E t))).
        -- rewrite E_alt. ring3.
        -- apply mderiv_neg, mderiv_tr, J1_deriv; auto.
      * unfold FE. caseb. apply (mderiv_eq _ _ (mneg ((mneg wx *m E t) *m J2 w t +m E t *m J1 w t))).
        -- rewrite E_J1. ring3.
        -- apply mderiv_neg, (mderiv_mul E); [apply E_deriv|apply J2_deriv; auto].
      * unfold FE. caseb; apply (mderiv_eq _ _ mzero); try apply mderiv_const; ring3.
Qed.
Lemma FE_0 i j : (i < 3 + K)%nat -> (j < 3 + K)%nat -> FE 0 i j = if Nat.eqb i j then mid else mzero.
Proof.
  intros Hi Hj. assert (J1 w 0 = mzero) as E1.
  { unfold J1. rewrite Rmult_0_r, sin_0, cos_0. unfold pw. apply M3_eq; u3; field; auto. }
  assert (J2 w 0 = mzero) as E2.
  { unfold J2. rewrite Rmult_0_r, cos_0, sin_0. unfold pw. apply M3_eq; u3; field; auto. }
  assert (J3 w 0 = mzero) as E3.
  { unfold J3. rewrite Rmult_0_r, cos_0, sin_0. unfold pw. apply M3_eq; u3; field; auto. }
  assert (E 0 = mid) as E0 by (unfold E; rewrite eR_0; ring3).
  assert (Mf 0 = mzero) as EM.
  { unfold Mf. rewrite E2. unfold c21, c22, c23, c24, c25, c26. rewrite !Rmult_0_r, sin_0, cos_0, ?Rmult_0_r, ?sin_0, ?cos_0.
    generalize (wx *m ax) (wx *m ax *m wx) (wx *m ax *m (wx *m wx)) (wx *m wx *m ax) (wx *m wx *m ax *m wx) (wx *m wx *m ax *m (wx *m wx)).
    intros. apply M3_eq; u3; field; auto. }
  assert (Nf 0 = mzero) as EN.
  { unfold Nf. rewrite E3. unfold c31, c32, c33, c34, c35, c36. rewrite !Rmult_0_r, sin_0, cos_0, ?Rmult_0_r, ?sin_0, ?cos_0.
    generalize (wx *m ax) (wx *m ax *m wx) (wx *m ax *m (wx *m wx)) (wx *m wx *m ax) (wx *m wx *m ax *m wx) (wx *m wx *m ax *m (wx *m wx)).
    intros. apply M3_eq; u3; field; auto. }
  unfold FE. rewrite E0, E1, E2, EM, EN.
  destruct (Nat.leb_spec j K).
  - destruct (Nat.eqb_spec i j); [reflexivity|]. destruct i as [|[|[|i]]], j as [|[|j]]; try lia; unfold skew; ring3.
  - destruct (Nat.eqb_spec i j); [reflexivity|]. destruct (Nat.eqb_spec j (K + 1)); destruct i as [|[|[|i]]]; ring3.
Qed.

Lemma FE_Phi X dt : / 1000000 <= th -> TOLERANCE <= vnorm (dt *s w) ->
  Phi_of K LeftInvariant true X w a dt = blk (3 + K) (FE dt).
Proof.
  intros H1 H2. destruct (exact_nz w dt H2) as [Ht Hw]. unfold Phi_of.
  unfold expSO3, jl, g2, g3. rewrite vnorm_neg. destruct (Rlt_dec (vnorm (dt *s w)) TOLERANCE); [lra|].
  rewrite Gam_neg.
  assert (dt *ms Gam 1 (dt *s w) = J1 w dt) as G1 by (apply J1_Gam; auto).
  assert ((dt * dt) *ms Gam 2 (dt *s w) = J2 w dt) as G2 by (apply J2_Gam; auto).
  assert ((dt * dt * dt) *ms Gam 3 (dt *s w) = J3 w dt) as G3 by (apply J3_Gam; auto).
  rewrite eR_Gam by auto. fold (E dt).
  assert (Phi25L_of w a dt (E dt) (mtr (Gam 2 (dt *s w))) = E dt *m Mf dt) as ->.
  { unfold Phi25L_of. cbv zeta. fold th. destruct (Rlt_dec th (1 / 1000000)); [lra|]. f_equal. unfold Mf.
    rewrite <- G2. fold ax wx. fold (c21 dt) (c22 dt) (c23 dt) (c24 dt) (c25 dt) (c26 dt).
    replace (ax *m mtr ((dt * dt) *ms Gam 2 (dt *s w))) with ((dt * dt) *ms (ax *m mtr (Gam 2 (dt *s w)))) by (rewrite mtr_scal, mmul_scal_r; reflexivity).
    reflexivity. }
  assert (Phi35L_of w a dt (E dt) (mtr (Gam 3 (dt *s w))) = E dt *m Nf dt) as ->.
  { unfold Phi35L_of. cbv zeta. fold th. destruct (Rlt_dec th (1 / 1000000)); [lra|]. f_equal. unfold Nf.
    rewrite <- G3. fold ax wx. fold (c31 dt) (c32 dt) (c33 dt) (c34 dt) (c35 dt) (c36 dt).
    replace (ax *m mtr ((dt * dt * dt) *ms Gam 3 (dt *s w))) with ((dt * dt * dt) *ms (ax *m mtr (Gam 3 (dt *s w)))) by (rewrite mtr_scal, mmul_scal_r; reflexivity).
    reflexivity. }
  apply blk_ext. intros i j Hi Hj. unfold fL, FE. fold (E dt). rewrite <- G1, <- G2.
  destruct (Nat.leb_spec j K).
  - destruct (Nat.eqb_spec i j); [reflexivity|]. destruct i as [|[|[|i]]], j as [|[|j]]; try lia; try reflexivity.
    + rewrite mv_scal_l. generalize (Gam 1 (dt *s w) *v a). intros u. unfold skew. ring3.
    + rewrite mv_scal_l. generalize (Gam 2 (dt *s w) *v a). intros u. unfold skew. ring3.
  - destruct (Nat.eqb_spec i j); [reflexivity|]. destruct (Nat.eqb_spec j (K + 1)); destruct i as [|[|[|i]]]; try reflexivity; ring3.
Qed.
End Exact.

Lemma left_dynamics_blk K w a : left_dynamics K w a = blk (3 + K) (fun i j =>
    if Nat.eqb i j && (i <=? K)%nat then mneg (crossm w)
    else match i with
      | 0 => if Nat.eqb j (K + 1) then mneg mid else mzero
      | 1 => if Nat.eqb j 0 then mneg (crossm a) else if Nat.eqb j (K + 2) then mneg mid else mzero
      | 2 => if Nat.eqb j 1 then mid else mzero
      | _ => mzero end%nat).
Proof. reflexivity. Qed.

Lemma matderiv_blk n (f : R -> nat -> nat -> M3) t D :
  (forall i j, (i < n)%nat -> (j < n)%nat -> mderiv (fun x => f x i j) t (D i j)) ->
  matderiv (3 * n) (fun x => blk n (f x)) t (blk n D).
Proof.
  intros H. repeat (split; [reflexivity|]). intros r c Hr Hc.
  assert (forall g, ent (blk n g) r c = mget (g (r / 3) (c / 3))%nat (r mod 3) (c mod 3)) as E.
  { intros g. unfold blk. rewrite ent_mk by lia; reflexivity. }
  rewrite E. replace (fun x => ent (blk n (f x)) r c) with (fun x => mget (f x (r / 3) (c / 3))%nat (r mod 3) (c mod 3))
    by (apply functional_extensionality; intros; rewrite E; reflexivity).
  apply H; try (apply Nat.mod_upper_bound; lia); apply Nat.div_lt_upper_bound; lia.
Qed.

(** C53 *)
Lemma thm_transition K ip w a dt s Phi : wfp K s -> ip_err ip = LeftInvariant -> ip_enable ip = true ->
  1 / 1000000 <= vnorm w -> TOLERANCE <= vnorm (dt *s w) ->
  StateTransitionMatrix ip w a dt s = Ok Phi ->
  exists F, F 0 = meye (9 + 3 * K) /\
    (forall t, matderiv (9 + 3 * K) F t (left_dynamics K w a *M F t)) /\ F dt = Phi.
Proof.
  intros W He Hen Hw Hdt H. rewrite (STM_ok K) in H by auto. injection H as <-. rewrite He, Hen.
  pose proof (wp_K _ _ W) as HK. assert (vnorm w <> 0) as Hw0 by lra.
  exists (fun t => blk (3 + K) (FE w a K t)). split; [|split].
  - replace (9 + 3 * K)%nat with (3 * (3 + K))%nat by lia. rewrite blk_eye. apply blk_ext. intros; apply FE_0; auto.
  - intros t. rewrite left_dynamics_blk, blk_mult. replace (9 + 3 * K)%nat with (3 * (3 + K))%nat by lia.
    apply matderiv_blk. intros i j Hi Hj. apply FE_deriv; auto.
  - symmetry. apply FE_Phi; auto. lra.
Qed.
(** ... and the right-invariant matrix is its conjugate by the change of coordinates
    at the two ends of the step *)
Lemma thm_transition_conj K ip w a dt s s' PhiL PhiR : wfp K s ->
  StateTransitionMatrix (set_err ip LeftInvariant) w a dt s = Ok PhiL ->
  StateTransitionMatrix (set_err ip RightInvariant) w a dt s = Ok PhiR ->
  propagate_mean s w a dt = Ok s' ->
  PhiR *M L2R K (sX s) = L2R K s' *M PhiL.
Proof.
  intros W H1 H2 H3. rewrite (STM_ok K) in H1, H2 by auto. rewrite (mean_ok K) in H3 by auto.
  injection H1 as <-. injection H2 as <-. injection H3 as <-. rewrite !L2R_AdB. cbn [set_err ip_err ip_enable].
  apply Phi_conj; [apply (wp_K _ _ W)|apply (wf_X _ _ (wp_wf _ _ W))].
Qed.

Lemma deriv0_const f : (forall t, derivable_pt_lim f t 0) -> f 1 = f 0 /\ forall t, f t = f 0.
Proof.
  intros H. assert (forall t, f t = f 0) as G; [|split; auto].
  assert (forall x y, x < y -> f x = f y) as G.
  { intros x y Hxy. apply (eq_is_derive f x y); auto. intros t _. apply is_derive_Reals. apply H. }
  intros t. destruct (Rtotal_order t 0) as [L|[->|L]]; [apply G; auto|reflexivity|symmetry; apply G; auto].
Qed.

Lemma mget_sub A B i j : mget (A -m B) i j = mget A i j - mget B i j.
Proof. destruct i as [|[|[|i]]], j as [|[|[|j]]]; simpl; ring. Qed.
(** below 1e-6 rad/s the bias columns are wrong: 1/2 and 1/6 are integer divisions *)
Lemma thm_transition_bad K ip s Phi : wfp K s -> ip_err ip = LeftInvariant -> ip_enable ip = true ->
  let w := vzero in let a := mkV 1 0 0 in
  StateTransitionMatrix ip w a 1 s = Ok Phi ->
  ~ exists F, F 0 = meye (9 + 3 * K) /\
    (forall t, matderiv (9 + 3 * K) F t (left_dynamics K w a *M F t)) /\ F 1 = Phi.
Proof.
  intros W He Hen w a H (F & F0 & FD & F1). rewrite (STM_ok K) in H by auto. injection H as <-. rewrite He, Hen in F1.
  pose proof (wp_K _ _ W) as HK.
  set (c := (3 * (K + 1) + 1)%nat).
  assert (forall t r, (r < 9 + 3 * K)%nat -> derivable_pt_lim (fun x => ent (F x) r c) t (ent (left_dynamics K w a *M F t) r c)) as D.
  { intros t r Hr. destruct (FD t) as (_ & _ & _ & _ & HD). apply HD; unfold c; lia. }
  assert (forall t, nr (F t) = (9 + 3 * K)%nat /\ nc (F t) = (9 + 3 * K)%nat) as DF by (intros t; destruct (FD t) as (_ & _ & X1 & X2 & _); auto).
  assert (forall t i e, (i < 3 + K)%nat -> (e < 3)%nat -> ent (left_dynamics K w a *M F t) (3 * i + e) c =
    mget (match i with
  | 0 => mneg (skew w) *m getM3 (F t) 0 (3 * (K + 1)) -m getM3 (F t) (3 * (K + 1)) (3 * (K + 1))
  | 1 => mneg (skew w) *m getM3 (F t) 3 (3 * (K + 1)) -m skew a *m getM3 (F t) 0 (3 * (K + 1)) -m getM3 (F t) (3 * (K + 2)) (3 * (K + 1))
  | 2 => mneg (skew w) *m getM3 (F t) 6 (3 * (K + 1)) +m getM3 (F t) 3 (3 * (K + 1))
  | _ => if (i <=? K)%nat then mneg (skew w) *m getM3 (F t) (3 * i) (3 * (K + 1)) else mzero end%nat) e 1) as R.
  { intros t i e Hi He'. unfold c. rewrite <- (mget_getM3 (left_dynamics K w a *M F t) (3 * i) (3 * (K + 1))) by lia.
    rewrite (getM3_mult _ _ _ _ (3 + K)) by reflexivity.
    rewrite (msum_ext _ _ (fun k => (if Nat.eqb i k && (i <=? K)%nat then mneg (crossm w)
    else match i with
      | 0 => if Nat.eqb k (K + 1) then mneg mid else mzero
      | 1 => if Nat.eqb k 0 then mneg (crossm a) else if Nat.eqb k (K + 2) then mneg mid else mzero
      | 2 => if Nat.eqb k 1 then mid else mzero
      | _ => mzero end%nat) *m getM3 (F t) (3 * k) (3 * (K + 1)))).
    2:{ intros k Hk. rewrite left_dynamics_blk, getM3_blk by lia. reflexivity. }
    rewrite (A_row w a K HK i (fun k => getM3 (F t) (3 * k) (3 * (K + 1)))) by auto. reflexivity. }
  assert (forall t, ent (F t) (3 * (K + 1) + 1) c = 1) as C1.
  { intros t. destruct (deriv0_const (fun x => ent (F x) (3 * (K + 1) + 1) c)) as [_ G].
    - intros x. replace 0 with (ent (left_dynamics K w a *M F x) (3 * (K + 1) + 1) c); [apply D; lia|].
      rewrite R by lia. replace (K + 1)%nat with (S (S (S (K - 2)))) at 1 by lia. caseb. reflexivity.
    - rewrite G, F0. rewrite ent_eye by (unfold c; lia). unfold c. rewrite Nat.eqb_refl. reflexivity. }
  assert (forall t, ent (F t) (3 * (K + 2) + 2) c = 0) as C2.
  { intros t. destruct (deriv0_const (fun x => ent (F x) (3 * (K + 2) + 2) c)) as [_ G].
    - intros x. replace 0 with (ent (left_dynamics K w a *M F x) (3 * (K + 2) + 2) c); [apply D; lia|].
      rewrite R by lia. replace (K + 2)%nat with (S (S (S (K - 1)))) at 1 by lia. caseb. reflexivity.
    - rewrite G, F0. rewrite ent_eye by (unfold c; lia). unfold c. caseb. reflexivity. }
  assert (forall t, ent (F t) 1 c = - t) as C3.
  { intros t. destruct (deriv0_const (fun x => ent (F x) 1 c + x)) as [_ G].
    - intros x. replace 0 with (ent (left_dynamics K w a *M F x) 1 c + 1).
      + apply (derivable_pt_lim_plus (fun x => ent (F x) 1 c)); [apply D; lia|apply derivable_pt_lim_id].
      + change 1%nat with (3 * 0 + 1)%nat at 1. rewrite R by lia. unfold w. rewrite skew_zero.
        replace (mneg mzero) with mzero by ring3. rewrite mmul_zero_l.
        rewrite mget_sub, mget_zero, mget_getM3 by lia. unfold c in C1. rewrite C1. ring.
    - specialize (G t). cbv beta in G. rewrite F0, ent_eye in G by (unfold c; lia). unfold c in *. revert G. caseb. lra. }
  assert (forall t, ent (F t) 5 c = t ^ 2 / 2) as C4.
  { intros t. destruct (deriv0_const (fun x => ent (F x) 5 c - x ^ 2 / 2)) as [_ G].
    - intros x. replace 0 with (ent (left_dynamics K w a *M F x) 5 c - x).
      + apply (derivable_pt_lim_minus (fun x => ent (F x) 5 c)); [apply D; lia|]. apply is_derive_Reals. auto_derive; auto. field.
      + change 5%nat with (3 * 1 + 2)%nat at 1. rewrite R by lia. unfold w. rewrite skew_zero.
        replace (mneg mzero) with mzero by ring3. rewrite mmul_zero_l.
        rewrite !mget_sub, mget_zero, mget_mul, !mget_getM3 by lia. unfold c in C2, C3. rewrite C2.
        change (0 + 1)%nat with 1%nat. rewrite C3. unfold a, skew. u3; ring.
    - specialize (G t). cbv beta in G. rewrite F0, ent_eye in G by (unfold c; lia). unfold c in *. revert G. caseb. lra. }
  pose proof (C4 1) as Bad. rewrite F1 in Bad. unfold Phi_of, Phi25L_of, Phi35L_of in Bad. cbv zeta in Bad.
  unfold w in Bad. rewrite vnorm_vzero in Bad. destruct (Rlt_dec 0 (1 / 1000000)) as [_|N] in Bad; [|lra].
  unfold c in Bad. change 5%nat with (3 * 1 + 2)%nat in Bad.
  rewrite <- mget_getM3 in Bad by lia. rewrite getM3_blk in Bad by lia. unfold fL in Bad. revert Bad. caseb.
  rewrite !mget_scal. change (1 / 2)%Z with 0%Z. rewrite Rmult_0_l, Rmult_0_l. lra.
Qed.
