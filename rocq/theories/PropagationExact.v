(** C18, C19: the mean is the exact strapdown solution, the error is log-linear. *)
From Coq Require Import Reals ZArith List Bool Lia Lra FunctionalExtensionality.
From Coquelicot Require Import Coquelicot.
From Verif Require Import Res Vec3 Mat LieGroup MatInv Psd Spec LieSO3 LieSEK RobotState StateProofs Inekf SpecFilter
  InekfProofs Imu Propagation SpecProp Blk PropagationProofs PropagationThms.
Import ListNotations.
Local Open Scope R_scope.

Lemma crossm_skew u : crossm u = skew u. Proof. reflexivity. Qed.

(** ** Derivatives of matrix functions *)
Lemma mderiv_ext f g t D : (forall x, f x = g x) -> mderiv f t D -> mderiv g t D.
Proof. intros E H i j Hi Hj. replace (fun x => mget (g x) i j) with (fun x => mget (f x) i j); [apply H; auto|]. apply functional_extensionality; intros; rewrite E; auto. Qed.
Lemma mderiv_scal (c : R -> R) t c' A : derivable_pt_lim c t c' -> mderiv (fun x => c x *ms A) t (c' *ms A).
Proof.
  intros H i j Hi Hj. rewrite mget_scal.
  replace (fun x => mget (c x *ms A) i j) with (fun x => c x * mget A i j).
  2:{ apply functional_extensionality; intros; rewrite mget_scal; auto. }
  replace (c' * mget A i j) with (c' * mget A i j + c t * 0) by ring.
  apply (derivable_pt_lim_mult c (fct_cte (mget A i j))); auto. apply derivable_pt_lim_const.
Qed.
Lemma mderiv_add f g t D E : mderiv f t D -> mderiv g t E -> mderiv (fun x => f x +m g x) t (D +m E).
Proof.
  intros H1 H2 i j Hi Hj. rewrite mget_add.
  replace (fun x => mget (f x +m g x) i j) with (fun x => mget (f x) i j + mget (g x) i j).
  2:{ apply functional_extensionality; intros; rewrite mget_add; auto. }
  apply (derivable_pt_lim_plus (fun x => mget (f x) i j)); [apply H1|apply H2]; auto.
Qed.
Lemma mderiv_const A t : mderiv (fun _ => A) t mzero.
Proof. intros i j Hi Hj. rewrite mget_zero. apply derivable_pt_lim_const. Qed.
Lemma mderiv_eq f t D E : D = E -> mderiv f t D -> mderiv f t E.
Proof. intros ->; auto. Qed.
Lemma mderiv_mul f g t D E : mderiv f t D -> mderiv g t E -> mderiv (fun x => f x *m g x) t (D *m g t +m f t *m E).
Proof.
  intros H1 H2 i j Hi Hj. rewrite mget_add, !mget_mul by auto.
  replace (fun x => mget (f x *m g x) i j) with
    (fun x => mget (f x) i 0 * mget (g x) 0 j + mget (f x) i 1 * mget (g x) 1 j + mget (f x) i 2 * mget (g x) 2 j).
  2:{ apply functional_extensionality; intros; rewrite mget_mul by auto; auto. }
  match goal with |- derivable_pt_lim _ _ ?v => replace v with
    ((mget D i 0 * mget (g t) 0 j + mget (f t) i 0 * mget E 0 j) +
     (mget D i 1 * mget (g t) 1 j + mget (f t) i 1 * mget E 1 j) +
     (mget D i 2 * mget (g t) 2 j + mget (f t) i 2 * mget E 2 j)) by ring end.
  assert (forall k, (k < 3)%nat -> derivable_pt_lim (fun x => mget (f x) i k * mget (g x) k j) t
    (mget D i k * mget (g t) k j + mget (f t) i k * mget E k j)) as Hk.
  { intros k Hk. apply (derivable_pt_lim_mult (fun x => mget (f x) i k) (fun x => mget (g x) k j)); [apply H1|apply H2]; auto. }
  apply (derivable_pt_lim_plus (fun x => mget (f x) i 0 * mget (g x) 0 j + mget (f x) i 1 * mget (g x) 1 j)); [|apply Hk; lia].
  apply (derivable_pt_lim_plus (fun x => mget (f x) i 0 * mget (g x) 0 j)); apply Hk; lia.
Qed.
Lemma mderiv_mul_l A g t E : mderiv g t E -> mderiv (fun x => A *m g x) t (A *m E).
Proof.
  intros H. apply (mderiv_eq _ _ (mzero *m g t +m A *m E)); [ring3|]. apply (mderiv_mul (fun _ => A)); auto. apply mderiv_const.
Qed.
Lemma mderiv_mul_r A g t E : mderiv g t E -> mderiv (fun x => g x *m A) t (E *m A).
Proof.
  intros H. apply (mderiv_eq _ _ (E *m A +m g t *m mzero)); [ring3|]. apply (mderiv_mul g (fun _ => A)); auto. apply mderiv_const.
Qed.
Lemma vderiv_add f g t D E : vderiv f t D -> vderiv g t E -> vderiv (fun x => f x +v g x) t (D +v E).
Proof.
  intros H1 H2 i Hi. rewrite vget_add.
  replace (fun x => vget (f x +v g x) i) with (fun x => vget (f x) i + vget (g x) i).
  2:{ apply functional_extensionality; intros; rewrite vget_add; auto. }
  apply (derivable_pt_lim_plus (fun x => vget (f x) i)); [apply H1|apply H2]; auto.
Qed.
Lemma vget_scal a u i : vget (a *s u) i = a * vget u i.
Proof. destruct i as [|[|[|i]]]; simpl; ring. Qed.
Lemma vderiv_scal (c : R -> R) t c' u : derivable_pt_lim c t c' -> vderiv (fun x => c x *s u) t (c' *s u).
Proof.
  intros H i Hi. rewrite vget_scal.
  replace (fun x => vget (c x *s u) i) with (fun x => c x * vget u i).
  2:{ apply functional_extensionality; intros; rewrite vget_scal; auto. }
  replace (c' * vget u i) with (c' * vget u i + c t * 0) by ring.
  apply (derivable_pt_lim_mult c (fct_cte (vget u i))); auto. apply derivable_pt_lim_const.
Qed.
Lemma vderiv_const u t : vderiv (fun _ => u) t vzero.
Proof. intros i Hi. replace (vget vzero i) with 0 by (destruct i as [|[|[|i]]]; reflexivity). apply derivable_pt_lim_const. Qed.
Lemma vderiv_mv f t D u : mderiv f t D -> vderiv (fun x => f x *v u) t (D *v u).
Proof.
  intros H i Hi. rewrite vget_mv by auto.
  replace (fun x => vget (f x *v u) i) with
    (fun x => mget (f x) i 0 * vget u 0 + mget (f x) i 1 * vget u 1 + mget (f x) i 2 * vget u 2).
  2:{ apply functional_extensionality; intros; rewrite vget_mv by auto; auto. }
  assert (forall k, (k < 3)%nat -> derivable_pt_lim (fun x => mget (f x) i k * vget u k) t (mget D i k * vget u k)) as Hk.
  { intros k Hk. replace (mget D i k * vget u k) with (mget D i k * vget u k + mget (f t) i k * 0) by ring.
    apply (derivable_pt_lim_mult (fun x => mget (f x) i k) (fct_cte (vget u k))); [apply H; auto|apply derivable_pt_lim_const]. }
  apply (derivable_pt_lim_plus (fun x => mget (f x) i 0 * vget u 0 + mget (f x) i 1 * vget u 1)); [|apply Hk; lia].
  apply (derivable_pt_lim_plus (fun x => mget (f x) i 0 * vget u 0)); apply Hk; lia.
Qed.
Lemma mderiv_skew f t D : vderiv f t D -> mderiv (fun x => skew (f x)) t (skew D).
Proof.
  intros H i j Hi Hj.
  assert (forall k, (k < 3)%nat -> derivable_pt_lim (fun x => - vget (f x) k) t (- vget D k)) as Hn.
  { intros k Hk. apply (derivable_pt_lim_opp (fun x => vget (f x) k)). apply H; auto. }
  destruct i as [|[|[|i]]]; try lia; destruct j as [|[|[|j]]]; try lia; unfold skew; cbn [mget m00 m01 m02 m10 m11 m12 m20 m21 m22];
    try (apply derivable_pt_lim_const); first [apply (H 0%nat); lia|apply (H 1%nat); lia|apply (H 2%nat); lia
     |apply (Hn 0%nat); lia|apply (Hn 1%nat); lia|apply (Hn 2%nat); lia].
Qed.

(** ** The integrals of the rotation *)
Definition pw (w : V3) (a b c : R) : M3 := a *ms mid +m b *ms skew w +m c *ms (skew w *m skew w).
Lemma pw_mul w a b c d e f :
  pw w a b c *m pw w d e f =
  pw w (a * d) (a * e + b * d - (b * f + c * e) * (vnorm w * vnorm w))
       (a * f + b * e + c * d - c * f * (vnorm w * vnorm w)).
Proof. rewrite vnorm_sq. unfold pw, skew. ring3. Qed.
Lemma pw_add w a b c d e f : pw w a b c +m pw w d e f = pw w (a + d) (b + e) (c + f).
Proof. unfold pw. ring3. Qed.
Lemma pw_sub w a b c d e f : pw w a b c -m pw w d e f = pw w (a - d) (b - e) (c - f).
Proof. unfold pw. ring3. Qed.
Lemma pw_scal w k a b c : k *ms pw w a b c = pw w (k * a) (k * b) (k * c).
Proof. unfold pw. ring3. Qed.
Lemma pw_tr w a b c : mtr (pw w a b c) = pw w a (- b) c.
Proof. unfold pw, skew. ring3. Qed.
Lemma pw_ext w a b c d e f : a = d -> b = e -> c = f -> pw w a b c = pw w d e f.
Proof. intros -> -> ->; reflexivity. Qed.

Section Int.
Variable w : V3.
Let th := vnorm w.
Definition eR (t : R) : M3 := pw w 1 (sin (th * t) / th) ((1 - cos (th * t)) / th ^ 2).
Definition J1 (t : R) : M3 := pw w t ((1 - cos (th * t)) / th ^ 2) ((th * t - sin (th * t)) / th ^ 3).
Definition J2 (t : R) : M3 := pw w (t ^ 2 / 2) ((th * t - sin (th * t)) / th ^ 3)
  (((th * t) ^ 2 + 2 * cos (th * t) - 2) / (2 * th ^ 4)).
Definition J3 (t : R) : M3 := pw w (t ^ 3 / 6) (((th * t) ^ 2 + 2 * cos (th * t) - 2) / (2 * th ^ 4))
  (((th * t) ^ 3 - 6 * (th * t) + 6 * sin (th * t)) / (6 * th ^ 5)).

Lemma mderiv_pw (a b c : R -> R) t a' b' c' :
  derivable_pt_lim a t a' -> derivable_pt_lim b t b' -> derivable_pt_lim c t c' ->
  mderiv (fun x => pw w (a x) (b x) (c x)) t (pw w a' b' c').
Proof. intros. unfold pw. repeat apply mderiv_add; apply mderiv_scal; auto. Qed.

Hypothesis Hth : th <> 0.
Ltac dv := apply is_derive_Reals; auto_derive; [auto|].

Lemma eR_deriv t : mderiv eR t (eR t *m skew w).
Proof.
  apply (mderiv_eq _ _ (pw w 0 (cos (th * t)) (sin (th * t) / th))).
  - replace (skew w) with (pw w 0 1 0) at 1 by (unfold pw, skew; ring3).
    unfold eR. rewrite pw_mul. fold th. apply pw_ext; [ring|field; auto|field; auto].
  - apply mderiv_pw; [apply derivable_pt_lim_const|dv; field; auto|dv; field; auto].
Qed.
Lemma J1_deriv t : mderiv J1 t (eR t).
Proof. apply mderiv_pw; [dv; ring|dv; field; auto|dv; field; auto]. Qed.
Lemma J2_deriv t : mderiv J2 t (J1 t).
Proof. apply mderiv_pw; [dv; field|dv; field; auto|dv; field; auto]. Qed.
Lemma J3_deriv t : mderiv J3 t (J2 t).
Proof. apply mderiv_pw; [dv; field|dv; field; auto|dv; field; auto]. Qed.

Lemma eR_add s t : eR (s + t) = eR s *m eR t.
Proof.
  unfold eR. rewrite pw_mul. fold th. rewrite Rmult_plus_distr_l, sin_plus, cos_plus.
  apply pw_ext; [ring|field; auto|]. field; auto.
Qed.
Lemma J1_add s t : J1 (s + t) = J1 s +m eR s *m J1 t.
Proof.
  unfold eR, J1. rewrite pw_mul, pw_add. fold th. rewrite Rmult_plus_distr_l, sin_plus, cos_plus.
  apply pw_ext; [ring|field; auto|]. field; auto.
Qed.
Lemma J2_add s t : J2 (s + t) = J2 s +m t *ms J1 s +m eR s *m J2 t.
Proof.
  unfold eR, J1, J2. rewrite pw_mul, pw_scal, !pw_add. fold th. rewrite Rmult_plus_distr_l, sin_plus, cos_plus.
  apply pw_ext; [field|field; auto|]. field; auto.
Qed.

Lemma sc_even m x : x <> 0 -> sc m (- x) = sc m x.
Proof.
  intros Hx. assert (sc m (- x) = sc m x /\ sc (S m) (- x) = sc (S m) x) as [H _]; [|exact H].
  induction m as [|m [IH1 IH2]].
  - split; cbn [sc]; [apply cos_neg|]. rewrite sin_neg. field; auto.
  - split; [exact IH2|]. cbn [sc] in *. rewrite IH1. f_equal. ring.
Qed.
Lemma vnorm_scal t u : vnorm (t *s u) = Rabs t * vnorm u.
Proof.
  unfold vnorm. replace (vdot (t *s u) (t *s u)) with (t ^ 2 * vdot u u) by (destruct u; unfold vdot; cbn; ring).
  rewrite sqrt_mult by (try apply vdot_nonneg; nra). f_equal. rewrite <- Rsqr_pow2. apply sqrt_Rsqr_abs.
Qed.
Lemma sc_scal m t : t <> 0 -> sc m (vnorm (t *s w)) = sc m (th * t).
Proof.
  intros Ht. rewrite vnorm_scal. fold th. unfold Rabs. destruct (Rcase_abs t).
  - replace (- t * th) with (- (th * t)) by ring. apply sc_even. apply Rmult_integral_contrapositive; auto.
  - f_equal. ring.
Qed.
Lemma Gam_scal m t : t <> 0 ->
  Gam m (t *s w) = pw w (/ INR (fact m)) (sc (S m) (th * t) * t) (sc (S (S m)) (th * t) * t ^ 2).
Proof.
  intros Ht. unfold Gam, pw. rewrite !sc_scal by auto. rewrite skew_scal, mmul_scal_l, mmul_scal_r, !mscal_scal.
  f_equal. f_equal. ring.
Qed.
Lemma eR_Gam t : t <> 0 -> Gam 0 (t *s w) = eR t.
Proof.
  intros Ht. rewrite Gam_scal by auto. unfold eR. cbn [sc]. simpl fact. simpl INR.
  apply pw_ext; [lra|field; auto|field; auto].
Qed.
Lemma J1_Gam t : t <> 0 -> t *ms Gam 1 (t *s w) = J1 t.
Proof.
  intros Ht. rewrite Gam_scal, pw_scal by auto. unfold J1. cbn [sc]. simpl fact. simpl INR.
  apply pw_ext; [field|field; auto|field; auto].
Qed.
Lemma J2_Gam t : t <> 0 -> (t * t) *ms Gam 2 (t *s w) = J2 t.
Proof.
  intros Ht. rewrite Gam_scal, pw_scal by auto. unfold J2. cbn [sc]. simpl fact. simpl INR.
  apply pw_ext; [field|field; auto|field; auto].
Qed.
Lemma J3_Gam t : t <> 0 -> (t * t * t) *ms Gam 3 (t *s w) = J3 t.
Proof.
  intros Ht. rewrite Gam_scal, pw_scal by auto. unfold J3. cbn [sc]. simpl fact. simpl INR.
  apply pw_ext; [field|field; auto|field; auto].
Qed.
End Int.

(** the regime in which the code's Gamma functions are exact *)
Definition exact_step (w : V3) (t : R) : Prop := w = vzero \/ TOLERANCE <= vnorm (t *s w).

Lemma expSO3_0 : expSO3 vzero = mid.
Proof.
  unfold expSO3. destruct (Rlt_dec (vnorm vzero) TOLERANCE) as [|N]; auto. exfalso; apply N.
  replace (vnorm vzero) with 0; [apply TOLERANCE_pos|]. unfold vnorm, vdot; cbn. rewrite <- sqrt_0 at 1. f_equal. ring.
Qed.
Lemma vnorm_vzero : vnorm vzero = 0.
Proof. unfold vnorm, vdot; cbn. replace (0 * 0 + 0 * 0 + 0 * 0) with 0 by ring. apply sqrt_0. Qed.
Lemma jl_0 : jl vzero = mid.
Proof.
  unfold jl. destruct (Rlt_dec (vnorm vzero) TOLERANCE) as [|N]; auto. exfalso; apply N.
  rewrite vnorm_vzero; apply TOLERANCE_pos.
Qed.
Lemma g2_0 : g2 vzero = (1 / 2) *ms mid.
Proof.
  unfold g2. destruct (Rlt_dec (vnorm vzero) TOLERANCE) as [|N]; auto. exfalso; apply N.
  rewrite vnorm_vzero; apply TOLERANCE_pos.
Qed.
Lemma exact_nz w t : TOLERANCE <= vnorm (t *s w) -> t <> 0 /\ vnorm w <> 0.
Proof.
  intros H. pose proof TOLERANCE_pos. rewrite vnorm_scal in H. split; intros E; rewrite E in H.
  - rewrite Rabs_R0 in H. lra.
  - lra.
Qed.

(** the exact flow *)
Definition flowR (w : V3) (R0 : M3) (t : R) : M3 := if Req_EM_T (vnorm w) 0 then R0 else R0 *m eR w t.
Definition int1 (w : V3) (t : R) : M3 := if Req_EM_T (vnorm w) 0 then t *ms mid else J1 w t.
Definition int2 (w : V3) (t : R) : M3 := if Req_EM_T (vnorm w) 0 then (t ^ 2 / 2) *ms mid else J2 w t.
Definition flowv (w a : V3) (R0 : M3) (u : V3) (t : R) : V3 := u +v (R0 *m int1 w t *v a +v t *s g_).
Definition flowp (w a : V3) (R0 : M3) (u q : V3) (t : R) : V3 :=
  q +v (t *s u +v (R0 *m int2 w t *v a +v (t ^ 2 / 2) *s g_)).

Lemma flow_strapdown w a R0 u q :
  strapdown w a (flowR w R0) (flowv w a R0 u) (flowp w a R0 u q).
Proof.
  intros t. rewrite crossm_skew. change gravity with g_.
  assert (derivable_pt_lim (fun x => x) t 1) as Did by apply derivable_pt_lim_id.
  assert (derivable_pt_lim (fun x => x ^ 2 / 2) t t) as Dsq.
  { apply is_derive_Reals. auto_derive; auto. field. }
  assert (mderiv (int1 w) t (if Req_EM_T (vnorm w) 0 then mid else eR w t)) as D1.
  { unfold int1. destruct (Req_EM_T (vnorm w) 0) as [E|E]; [|apply J1_deriv; auto].
    apply (mderiv_eq _ _ (1 *ms mid)); [ring3|]. apply mderiv_scal; auto. }
  assert (mderiv (int2 w) t (int1 w t)) as D2.
  { unfold int2, int1. destruct (Req_EM_T (vnorm w) 0) as [E|E]; [|apply J2_deriv; auto]. apply mderiv_scal; auto. }
  split; [|split].
  - unfold flowR. destruct (Req_EM_T (vnorm w) 0) as [E|E].
    + apply vnorm_0_inv in E. subst w. rewrite skew_zero, mmul_zero_r. apply mderiv_const.
    + apply (mderiv_eq _ _ (R0 *m (eR w t *m skew w))); [apply mmul_assoc|]. apply mderiv_mul_l, eR_deriv; auto.
  - unfold flowv. assert (forall D, D = flowR w R0 t *v a +v g_ -> vderiv (fun x => u +v (R0 *m int1 w x *v a +v x *s g_)) t D) as G; [|apply G; auto].
    intros D ->. replace (flowR w R0 t *v a +v g_) with
      (vzero +v ((R0 *m (if Req_EM_T (vnorm w) 0 then mid else eR w t)) *v a +v 1 *s g_)).
    + apply vderiv_add; [apply vderiv_const|]. apply vderiv_add.
      * apply vderiv_mv, mderiv_mul_l, D1.
      * apply (vderiv_scal (fun x => x)); auto.
    + unfold flowR. rewrite vadd_zero_l, vscal_1. destruct (Req_EM_T (vnorm w) 0); [rewrite mmul_id_r|]; reflexivity.
  - unfold flowp, flowv.
    replace (u +v (R0 *m int1 w t *v a +v t *s g_)) with (vzero +v (1 *s u +v ((R0 *m int1 w t) *v a +v t *s g_)))
      by (rewrite vadd_zero_l, vscal_1; reflexivity).
    apply vderiv_add; [apply vderiv_const|]. apply vderiv_add; [apply (vderiv_scal (fun x => x)); auto|].
    apply vderiv_add; [apply vderiv_mv, mderiv_mul_l, D2|]. apply (vderiv_scal (fun x => x ^ 2 / 2)); auto.
Qed.

Lemma flow_0 w a R0 u q : flowR w R0 0 = R0 /\ flowv w a R0 u 0 = u /\ flowp w a R0 u q 0 = q.
Proof.
  unfold flowR, flowv, flowp, int1, int2. destruct (Req_EM_T (vnorm w) 0) as [E|E].
  - split; [reflexivity|]. split; [ring3|]. apply V3_eq; u3; field.
  - assert (eR w 0 = mid) as E0.
    { unfold eR. rewrite Rmult_0_r, sin_0, cos_0. unfold pw. apply M3_eq; u3; field; auto. }
    assert (J1 w 0 = mzero) as E1.
    { unfold J1. rewrite Rmult_0_r, sin_0, cos_0. unfold pw. apply M3_eq; u3; field; auto. }
    assert (J2 w 0 = mzero) as E2.
    { unfold J2. rewrite Rmult_0_r, cos_0, sin_0. unfold pw. apply M3_eq; u3; field; auto. }
    rewrite E0, E1, E2. split; [apply mmul_id_r|]. split; [ring3|]. apply V3_eq; u3; field.
Qed.

Lemma gammas_exact w t : exact_step w t ->
  expSO3 (t *s w) = (if Req_EM_T (vnorm w) 0 then mid else eR w t) /\
  t *ms jl (t *s w) = int1 w t /\ (t * t) *ms g2 (t *s w) = int2 w t.
Proof.
  intros [->|H]; unfold int1, int2.
  - rewrite vscal_zero, expSO3_0, jl_0, g2_0. destruct (Req_EM_T (vnorm vzero) 0) as [_|N]; [|exfalso; apply N, vnorm_vzero].
    split; [reflexivity|]. split; [reflexivity|]. apply M3_eq; u3; field.
  - destruct (exact_nz w t H) as [Ht Hw]. destruct (Req_EM_T (vnorm w) 0); [contradiction|].
    unfold expSO3, jl, g2. destruct (Rlt_dec (vnorm (t *s w)) TOLERANCE); [lra|].
    rewrite eR_Gam, J1_Gam, J2_Gam by auto. auto.
Qed.

Lemma stepX_flow K X w a t : exact_step w t ->
  stepX K X w a t = sek K (flowR w (rot X) t) (fun k => match k with
    | O => flowv w a (rot X) (col X 0) t | 1%nat => flowp w a (rot X) (col X 0) (col X 1) t | _ => col X k end).
Proof.
  intros H. destruct (gammas_exact w t H) as (E0 & E1 & E2). unfold stepX. cbv zeta.
  assert (rot X *m expSO3 (t *s w) = flowR w (rot X) t) as ->.
  { rewrite E0. unfold flowR. destruct (Req_EM_T (vnorm w) 0); [apply mmul_id_r|reflexivity]. }
  apply aff_ext. intros [|[|k]] Hk; [| |reflexivity].
  - unfold flowv. rewrite <- E1. ring3.
  - unfold flowp. rewrite <- E2. apply V3_eq; u3; field.
Qed.

(** C18: exact solution *)
Lemma thm_strapdown K ip m s t0 s' : wfp K s -> stprop s = Some t0 -> propagate_with ip m s = Ok s' ->
  let w := rate ip m (gbias s) in let a := accel ip m (gbias s) (abias s) in let dt := i_t m - t0 in
  (w = vzero \/ TOLERANCE <= vnorm (dt *s w)) ->
  exists Rf vf pf, strapdown w a Rf vf pf /\
    Rf 0 = rot (sX s) /\ vf 0 = col (sX s) 0 /\ pf 0 = col (sX s) 1 /\
    rot (sX s') = Rf dt /\ col (sX s') 0 = vf dt /\ col (sX s') 1 = pf dt.
Proof.
  intros W Ht H w a dt Hex. pose proof (step_eq K ip m s t0 W Ht) as E. cbv zeta in E. fold w a dt in E.
  rewrite E in H. injection H as <-. cbn [sX]. pose proof (wp_K _ _ W) as HK.
  exists (flowR w (rot (sX s))), (flowv w a (rot (sX s)) (col (sX s) 0)),
    (flowp w a (rot (sX s)) (col (sX s) 0) (col (sX s) 1)).
  split; [apply flow_strapdown|]. destruct (flow_0 w a (rot (sX s)) (col (sX s) 0) (col (sX s) 1)) as (F1 & F2 & F3).
  repeat (split; [assumption|]). rewrite stepX_flow by exact Hex. rewrite rot_aff, !col_aff by lia. auto.
Qed.

(** C18: no discretisation error *)
Lemma stepX_add K X w a s t : SEK K X -> exact_step w s -> exact_step w t -> exact_step w (s + t) -> (2 <= K)%nat ->
  stepX K (stepX K X w a s) w a t = stepX K X w a (s + t).
Proof.
  intros HX Hs Ht Hst HK. rewrite !stepX_flow by auto.
  assert (flowR w (flowR w (rot X) s) t = flowR w (rot X) (s + t)) as ER.
  { unfold flowR. destruct (Req_EM_T (vnorm w) 0); [reflexivity|]. rewrite eR_add, mmul_assoc by auto. reflexivity. }
  rewrite rot_aff, !col_aff by lia. rewrite ER. apply aff_ext.
  intros [|[|k]] Hk; [| |rewrite col_aff by lia; reflexivity].
  - unfold flowv, flowR, int1. destruct (Req_EM_T (vnorm w) 0); [ring3|].
    rewrite J1_add by auto. rewrite mmul_add_r, mv_add_l, mmul_assoc. ring3.
  - unfold flowp, flowv, flowR, int1, int2. destruct (Req_EM_T (vnorm w) 0); [apply V3_eq; u3; field|].
    rewrite J2_add by auto. rewrite !mmul_add_r, !mv_add_l, mmul_assoc, mmul_scal_r.
    generalize (rot X *m eR w s *m J2 w t) (rot X *m J2 w s) (rot X *m J1 w s). intros A B C.
    apply V3_eq; u3; field.
Qed.
