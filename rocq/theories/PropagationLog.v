(** C19, C54: log-linear error propagation; propagation does not depend on the
    error convention. *)
From Coq Require Import Reals ZArith List Bool Lia Lra.
From Verif Require Import Res Vec3 Mat LieGroup MatInv Psd Spec LieSO3 LieSEK RobotState StateProofs Inekf SpecFilter
  InekfProofs Imu Propagation SpecProp Blk PropagationProofs PropagationThms.
Import ListNotations.
Local Open Scope R_scope.

(** ** The exact Gamma functions *)
Definition eG (m : nat) (u : V3) : M3 := if Req_EM_T (vnorm u) 0 then (/ INR (fact m)) *ms mid else Gam m u.
Lemma eG_series m u : matrix_series3 (fun n => / INR (fact (n + m))) (skew u) (eG m u).
Proof.
  unfold eG. destruct (Req_EM_T (vnorm u) 0) as [E|E].
  - apply vnorm_0_inv in E. subst u. apply Gam_series_0.
  - apply Gam_series; auto.
Qed.
Lemma eG_diff u : eG 0 u -m mid = eG 1 u *m skew u.
Proof.
  unfold eG. destruct (Req_EM_T (vnorm u) 0) as [E|E].
  - apply vnorm_0_inv in E. subst u. rewrite skew_zero, mmul_zero_r. simpl fact. simpl INR. apply M3_eq; u3; field.
  - rewrite Gam_rec by auto. simpl fact. simpl INR.
    replace (skew u *m Gam 1 u) with (Gam 1 u *m skew u).
    + generalize (Gam 1 u *m skew u). intros A. apply M3_eq; u3; field.
    + unfold Gam. rewrite !mmul_add_l, !mmul_add_r, !mmul_scal_l, !mmul_scal_r, mmul_id_l, mmul_id_r, mmul_assoc. reflexivity.
Qed.
Lemma eG_conj m A u : SO3 A -> eG m (A *v u) = A *m eG m u *m mtr A.
Proof.
  intros HA. unfold eG. rewrite SO3_norm by auto. destruct (Req_EM_T (vnorm u) 0) as [E|E].
  - rewrite mmul_scal_r, mmul_scal_l, mmul_id_r, SO3_r by auto. reflexivity.
  - unfold Gam. rewrite SO3_norm, SO3_skew by auto.
    rewrite !mmul_add_r, !mmul_add_l, !mmul_scal_r, !mmul_scal_l, mmul_id_r, SO3_r by auto.
    f_equal. f_equal. rewrite <- (mmul_assoc (A *m skew u)), (mmul_assoc (mtr A)), (mmul_assoc (mtr A) A).
    destruct HA as [HA _]. rewrite HA, mmul_id_l, !mmul_assoc. reflexivity.
Qed.

Lemma expm_unique A G G' : is_expm A G -> is_expm A G' -> G = G'.
Proof.
  intros (H1 & H2 & H3) (H1' & H2' & H3'). apply mat_ext; try congruence.
  intros i j Hi Hj. apply (uniqueness_sum (fun n => / INR (fact n) * ent (matpow A n) i j)); [apply H3|apply H3']; congruence.
Qed.
Lemma expm_hat K v : nr v = (3 + 3 * K)%nat ->
  is_expm (hat K v) (sek K (eG 0 (getV3 v 0 0)) (fun k => eG 1 (getV3 v 0 0) *v getV3 v (3 + 3 * k) 0)).
Proof. intros H. rewrite hat_aff by auto. apply expm_aff; apply eG_series. Qed.

(** ** The group part of the transition matrix applied to a vector *)
Lemma vsum_supp3 n f : (forall i, (i < n)%nat -> (3 <= i)%nat -> f i = vzero) -> (3 <= n)%nat ->
  vsum n f = f 0%nat +v f 1%nat +v f 2%nat.
Proof.
  intros H Hn. replace n with (3 + (n - 3))%nat by lia. rewrite vsum_app, (vsum_zero (n - 3)) by (intros; apply H; lia).
  cbn [vsum]. ring3.
Qed.
Lemma msum_supp3 n f : (forall i, (i < n)%nat -> (3 <= i)%nat -> f i = mzero) -> (3 <= n)%nat ->
  msum n f = f 0%nat +m f 1%nat +m f 2%nat.
Proof.
  intros H Hn. replace n with (3 + (n - 3))%nat by lia. rewrite msum_app, (msum_zero (n - 3)) by (intros; apply H; lia).
  cbn [msum]. ring3.
Qed.

Definition grp (K : nat) (M : mat) : mat := sub M 0 0 (3 + 3 * K) (3 + 3 * K).
Lemma getV3_grp K f v i : nr v = (3 + 3 * K)%nat -> (i <= K)%nat ->
  getV3 (grp K (blk (3 + K) f) *M v) (3 * i) 0 = vsum (1 + K) (fun k => f i k *v getV3 v (3 * k) 0).
Proof.
  intros Hv Hi. rewrite (getV3_mult _ _ _ _ (1 + K)) by (unfold grp; mdim). apply vsum_ext. intros k Hk. f_equal.
  rewrite <- (getM3_blk (3 + K) f i k) by lia. apply M3_ext; intros a b Ha Hb. rewrite !mget_getM3 by auto.
  unfold grp. rewrite ent_sub by lia. f_equal; lia.
Qed.

Lemma inverse_of_unique n X Y Z : inverse_of n X Y -> inverse_of n X Z -> Y = Z.
Proof.
  intros (A1 & A2 & A3 & A4 & A5 & A6) (B1 & B2 & B3 & B4 & B5 & B6).
  rewrite <- (mmult_eye_r Y n) by auto. rewrite <- B5, mmult_assoc, A6. apply mmult_eye_l; auto.
Qed.
Lemma inverse_of_sekinv K X Y : SEK K X -> inverse_of (3 + K) X Y -> Y = sekinv K X.
Proof. intros H HY. apply (inverse_of_unique (3 + K) X); auto. apply sekinv_spec; auto. Qed.

Lemma mv_sub_l A B u : (A -m B) *v u = A *v u -v B *v u. Proof. ring3. Qed.
Lemma mv_neg_l A u : mneg A *v u = vneg (A *v u). Proof. ring3. Qed.
Lemma mneg_mul_l A B : mneg A *m B = mneg (A *m B). Proof. ring3. Qed.
(** the error after one step *)
Lemma right_error K X1 X2 w a dt : SEK K X1 -> SEK K X2 ->
  stepX K X1 w a dt *M sekinv K (stepX K X2 w a dt) =
  let E := rot X1 *m mtr (rot X2) in let c k := col X1 k -v E *v col X2 k in
  sek K E (fun k => match k with
    | O => c 0%nat +v dt *s ((mid -m E) *v g_)
    | 1%nat => c 1%nat +v dt *s c 0%nat +v (dt * dt / 2) *s ((mid -m E) *v g_)
    | _ => c k end).
Proof.
  intros H1 H2. pose proof (SEK_SO3 _ _ H1) as S1. pose proof (SEK_SO3 _ _ H2) as S2. cbv zeta.
  set (G0 := expSO3 (dt *s w)). assert (SO3 G0) as SG by apply expSO3_SO3.
  unfold stepX. cbv zeta. fold G0. unfold sekinv. rewrite rot_aff, aff_mult.
  assert (rot X1 *m G0 *m mtr (rot X2 *m G0) = rot X1 *m mtr (rot X2)) as ->.
  { rewrite mtr_mul, <- (mmul_assoc (rot X1)), (mmul_assoc G0), (SO3_r G0 SG), mmul_id_l. reflexivity. }
  assert (forall x, rot X1 *m G0 *v vneg (mtr (rot X2 *m G0) *v x) = vneg (rot X1 *m mtr (rot X2) *v x)) as Ex.
  { intros x. rewrite mv_neg_r, <- mv_mul. f_equal. f_equal. rewrite mtr_mul, <- (mmul_assoc (rot X1)), (mmul_assoc G0), (SO3_r G0 SG), mmul_id_l. reflexivity. }
  assert (forall M, rot X1 *m mtr (rot X2) *m (rot X2 *m M) = rot X1 *m M) as EE.
  { intros M. destruct S2 as [S2 _]. rewrite <- (mmul_assoc (rot X1)), (mmul_assoc (mtr (rot X2))), S2, mmul_id_l. reflexivity. }
  replace (1 * 1) with 1 by ring. apply aff_ext. intros k Hk. rewrite vscal_1, col_aff by auto. rewrite Ex.
  set (E := rot X1 *m mtr (rot X2)) in *.
  destruct k as [|[|k]].
  - rewrite !mv_add_r, !mv_scal_r, !mv_add_r, <- (mv_mul E), EE, mv_sub_l. generalize (rot X1 *m jl (dt *s w) *v a) (E *v g_) (E *v col X2 0). intros A B C. rewrite mv_id. ring3.
  - rewrite !mv_add_r, !mv_scal_r, !mv_add_r, !mv_scal_r, <- (mv_mul E), EE, mv_sub_l.
    generalize (rot X1 *m g2 (dt *s w) *v a) (E *v g_) (E *v col X2 0) (E *v col X2 1). intros A B C D. rewrite mv_id.
    apply V3_eq; u3; field.
  - ring3.
Qed.
Lemma left_error K X1 X2 w a dt : SEK K X1 -> SEK K X2 ->
  sekinv K (stepX K X2 w a dt) *M stepX K X1 w a dt =
  let E := mtr (rot X2) *m rot X1 in let c k := mtr (rot X2) *v (col X1 k -v col X2 k) in
  let G := mtr (expSO3 (dt *s w)) in
  sek K (G *m E *m mtr G) (fun k => G *v match k with
    | O => c 0%nat +v dt *s ((E -m mid) *v (jl (dt *s w) *v a))
    | 1%nat => c 1%nat +v dt *s c 0%nat +v (dt * dt) *s ((E -m mid) *v (g2 (dt *s w) *v a))
    | _ => c k end).
Proof.
  intros H1 H2. pose proof (SEK_SO3 _ _ H1) as S1. pose proof (SEK_SO3 _ _ H2) as S2. cbv zeta.
  unfold stepX. cbv zeta. unfold sekinv. rewrite rot_aff, aff_mult.
  set (G0 := expSO3 (dt *s w)). assert (SO3 G0) as SG by apply expSO3_SO3.
  rewrite mtr_tr.
  assert (mtr (rot X2 *m G0) *m (rot X1 *m G0) = mtr G0 *m (mtr (rot X2) *m rot X1) *m G0) as ->.
  { rewrite mtr_mul, !mmul_assoc. reflexivity. }
  replace (1 * 1) with 1 by ring. apply aff_ext. intros k Hk. rewrite vscal_1, col_aff by auto.
  assert (forall x y, mtr (rot X2 *m G0) *v x +v vneg (mtr (rot X2 *m G0) *v y) = mtr G0 *v (mtr (rot X2) *v (x -v y))) as Ex.
  { intros x y. rewrite mtr_mul, !mv_mul, !mv_sub_r. ring3. }
  rewrite Ex. f_equal.
  assert (forall M u, mtr (rot X2) *v (rot X1 *m M *v u -v rot X2 *m M *v u) = (mtr (rot X2) *m rot X1 -m mid) *v (M *v u)) as EE.
  { intros M u. rewrite mv_sub_l, mv_id, mv_sub_r, <- !mv_mul, !mmul_assoc. destruct S2 as [S2 _]. rewrite S2, mmul_id_l. reflexivity. }
  destruct k as [|[|k]].
  - rewrite <- EE. generalize (rot X1 *m jl (dt *s w) *v a) (rot X2 *m jl (dt *s w) *v a). intros A B. ring3.
  - rewrite <- EE. generalize (rot X1 *m g2 (dt *s w) *v a) (rot X2 *m g2 (dt *s w) *v a). intros A B. ring3.
  - reflexivity.
Qed.
Lemma error_form K X1 X2 e : SEK K X1 -> SEK K X2 ->
  inv_error e X1 (sekinv K X2) = match e with
    | RightInvariant => sek K (rot X1 *m mtr (rot X2)) (fun k => col X1 k -v rot X1 *m mtr (rot X2) *v col X2 k)
    | LeftInvariant => sek K (mtr (rot X2) *m rot X1) (fun k => mtr (rot X2) *v (col X1 k -v col X2 k)) end.
Proof.
  intros H1 H2. rewrite (SEK_form K X1 H1) at 1. destruct e; cbn [inv_error]; unfold sekinv; rewrite aff_mult;
    replace (1 * 1) with 1 by ring; apply aff_ext; intros k Hk; rewrite vscal_1, ?mv_neg_r, <- ?mv_mul, ?mv_sub_r; ring3.
Qed.

Lemma skew_mv u v : skew u *v v = cross u v. Proof. unfold skew. ring3. Qed.
Lemma skew_swap u v : skew u *v v = vneg (skew v *v u). Proof. unfold skew. ring3. Qed.

Lemma loglinear K e en X1 X2 w a dt Xs xi : (2 <= K)%nat -> SEK K X1 -> SEK K X2 -> nr xi = (3 + 3 * K)%nat ->
  is_expm (hat K xi) (inv_error e X1 (sekinv K X2)) ->
  is_expm (hat K (group_part K (Phi_of K e en Xs w a dt) *M xi))
    (inv_error e (stepX K X1 w a dt) (sekinv K (stepX K X2 w a dt))).
Proof.
  intros HK H1 H2 Hxi H. pose proof (expm_unique _ _ _ H (expm_hat K xi Hxi)) as E. clear H.
  rewrite error_form in E by auto. change (group_part K) with (grp K).
  set (f := match e with
    | LeftInvariant => fL K en a dt (expSO3 (dt *s w)) (jl (dt *s w)) (g2 (dt *s w))
        (Phi25L_of w a dt (mtr (expSO3 (dt *s w))) (mtr (g2 (dt *s w)))) (Phi35L_of w a dt (mtr (expSO3 (dt *s w))) (g3 (vneg (dt *s w))))
    | RightInvariant => fR K en a dt Xs (expSO3 (dt *s w)) (jl (dt *s w)) (g2 (dt *s w))
        (Phi25L_of w a dt (mtr (expSO3 (dt *s w))) (mtr (g2 (dt *s w)))) (Phi35L_of w a dt (mtr (expSO3 (dt *s w))) (g3 (vneg (dt *s w)))) end).
  assert (Phi_of K e en Xs w a dt = blk (3 + K) f) as -> by (unfold Phi_of, f; destruct e; reflexivity).
  set (v := grp K (blk (3 + K) f) *M xi).
  assert (nr v = (3 + 3 * K)%nat) as Hv by (unfold v, grp; mdim).
  pose proof (expm_hat K v Hv) as HE.
  assert (forall i, (i <= K)%nat -> getV3 v (3 * i) 0 = vsum (1 + K) (fun k => f i k *v getV3 xi (3 * k) 0)) as Gv.
  { intros i Hi. apply getV3_grp; auto. }
  set (x0 := getV3 xi 0 0) in *.
  assert (rot (match e with
    | RightInvariant => sek K (rot X1 *m mtr (rot X2)) (fun k => col X1 k -v rot X1 *m mtr (rot X2) *v col X2 k)
    | LeftInvariant => sek K (mtr (rot X2) *m rot X1) (fun k => mtr (rot X2) *v (col X1 k -v col X2 k)) end) = eG 0 x0) as Erot.
  { rewrite E. apply rot_aff. }
  assert (forall k, (k < K)%nat -> col (match e with
    | RightInvariant => sek K (rot X1 *m mtr (rot X2)) (fun k => col X1 k -v rot X1 *m mtr (rot X2) *v col X2 k)
    | LeftInvariant => sek K (mtr (rot X2) *m rot X1) (fun k => mtr (rot X2) *v (col X1 k -v col X2 k)) end) k
      = eG 1 x0 *v getV3 xi (3 + 3 * k) 0) as Ecol.
  { intros k Hk. rewrite E, col_aff by auto. reflexivity. }
  clear E.
  match type of HE with is_expm _ ?Y => replace (inv_error e (stepX K X1 w a dt) (sekinv K (stepX K X2 w a dt))) with Y; [exact HE|] end.
  destruct e; cbn [inv_error].
  - (* left *) rewrite left_error by auto. cbv zeta. rewrite rot_aff in Erot.
    assert (forall k, (k < K)%nat -> mtr (rot X2) *v (col X1 k -v col X2 k) = eG 1 x0 *v getV3 xi (3 + 3 * k) 0) as Ec.
    { intros k Hk. rewrite <- Ecol, col_aff by auto. reflexivity. } clear Ecol.
    rewrite Erot. set (G := mtr (expSO3 (dt *s w))) in *. assert (SO3 G) as SG by apply SO3_tr, expSO3_SO3.
    assert (getV3 v 0 0 = G *v x0) as V0.
    { change 0%nat with (3 * 0)%nat at 1. rewrite Gv by lia. rewrite (vsum_delta _ 0); [reflexivity| |lia].
      intros k Hk Hne. unfold f, fL. caseb. destruct k; [lia|]. apply mv_zero_l. }
    rewrite V0, !eG_conj by auto. apply aff_ext. intros k Hk. rewrite !mv_mul. f_equal.
    replace (3 + 3 * k)%nat with (3 * S k)%nat by lia. rewrite Gv by lia.
    assert (forall u, mtr G *v (G *v u) = u) as GG by (intros; apply SO3_l; auto).
    destruct k as [|[|k]].
    + rewrite (vsum_two _ 0 1); [|intros k Hk' Hn0 Hn1|lia|lia].
      2:{ unfold f, fL. caseb. destruct k as [|[|k]]; try lia. apply mv_zero_l. }
      unfold f, fL. caseb. cbn [Nat.eqb]. change (3 * 0)%nat with 0%nat. fold G. rewrite eG_diff. fold x0. rewrite (Ec 0%nat) by lia.
      rewrite mv_scal_l, mneg_mul_l, mv_neg_l, !mv_mul, mv_add_r, mv_scal_r, mv_neg_r, !GG.
      rewrite (skew_swap x0), mv_add_r, mv_scal_r, !mv_neg_r. change (3 * 1)%nat with (3 + 3 * 0)%nat.
      generalize (eG 1 x0 *v getV3 xi (3 + 3 * 0) 0) (eG 1 x0 *v (skew (jl (dt *s w) *v a) *v x0)). intros A B. ring3.
    + rewrite vsum_supp3; [|intros k Hk' Hn|lia].
      2:{ unfold f, fL. caseb. destruct k as [|[|[|k]]]; try lia. apply mv_zero_l. }
      unfold f, fL. caseb. cbn [Nat.eqb]. change (3 * 0)%nat with 0%nat. fold G. rewrite eG_diff. fold x0. rewrite (Ec 0%nat), (Ec 1%nat) by lia.
      rewrite !mv_scal_l, mneg_mul_l, mv_neg_l, !mv_mul, !mv_add_r, !mv_scal_r, mv_neg_r, !GG.
      rewrite (skew_swap x0), ?mv_add_r, ?mv_scal_r, !mv_neg_r. change (3 * 2)%nat with 6%nat. change (3 + 3 * 1)%nat with 6%nat. change (3 * 1)%nat with 3%nat. change (3 + 3 * 0)%nat with 3%nat.
      generalize (eG 1 x0 *v getV3 xi 3 0) (eG 1 x0 *v getV3 xi 6 0) (eG 1 x0 *v (skew (g2 (dt *s w) *v a) *v x0)). intros A B C. ring3.
    + rewrite (vsum_delta _ (S (S (S k)))); [|intros q Hq Hn|lia].
      2:{ unfold f, fL. caseb. apply mv_zero_l. }
      unfold f, fL. caseb. fold G. rewrite GG. rewrite (Ec (S (S k))) by lia. f_equal; f_equal; lia.
  - (* right *) rewrite right_error by auto. cbv zeta. rewrite rot_aff in Erot.
    assert (forall k, (k < K)%nat -> col X1 k -v rot X1 *m mtr (rot X2) *v col X2 k = eG 1 x0 *v getV3 xi (3 + 3 * k) 0) as Ec.
    { intros k Hk. rewrite <- Ecol, col_aff by auto. reflexivity. } clear Ecol.
    rewrite Erot in Ec |- *.
    assert (getV3 v 0 0 = x0) as V0.
    { change 0%nat with (3 * 0)%nat at 1. rewrite Gv by lia. rewrite (vsum_delta _ 0); [apply mv_id| |lia].
      intros k Hk Hne. unfold f, fR. caseb. destruct k; [lia|]. apply mv_zero_l. }
    rewrite V0. apply aff_ext. intros k Hk.
    replace (3 + 3 * k)%nat with (3 * S k)%nat by lia. rewrite Gv by lia.
    assert ((mid -m eG 0 x0) *v g_ = eG 1 x0 *v (skew g_ *v x0)) as Eg.
    { replace (mid -m eG 0 x0) with (mneg (eG 0 x0 -m mid)) by ring3. rewrite eG_diff, mv_neg_l, mv_mul, (skew_swap x0), mv_neg_r. ring3. }
    destruct k as [|[|k]].
    + rewrite (vsum_two _ 0 1); [|intros k Hk' Hn0 Hn1|lia|lia].
      2:{ unfold f, fR. caseb. destruct k as [|[|k]]; try lia. apply mv_zero_l. }
      unfold f, fR. caseb. cbn [Nat.eqb]. change (3 * 0)%nat with 0%nat. fold x0. rewrite Eg. rewrite (Ec 0%nat) by lia.
      rewrite mv_scal_l, mv_id, mv_add_r, mv_scal_r. change (3 * 1)%nat with (3 + 3 * 0)%nat.
      generalize (eG 1 x0 *v getV3 xi (3 + 3 * 0) 0) (eG 1 x0 *v (skew g_ *v x0)). intros A B. ring3.
    + rewrite vsum_supp3; [|intros k Hk' Hn|lia].
      2:{ unfold f, fR. caseb. destruct k as [|[|[|k]]]; try lia. apply mv_zero_l. }
      unfold f, fR. caseb. cbn [Nat.eqb]. change (3 * 0)%nat with 0%nat. fold x0. rewrite Eg. rewrite (Ec 0%nat), (Ec 1%nat) by lia.
      rewrite !mv_scal_l, !mv_id, !mv_add_r, !mv_scal_r. change (3 * 2)%nat with 6%nat. change (3 + 3 * 1)%nat with 6%nat. change (3 * 1)%nat with 3%nat. change (3 + 3 * 0)%nat with 3%nat.
      generalize (eG 1 x0 *v getV3 xi 3 0) (eG 1 x0 *v getV3 xi 6 0) (eG 1 x0 *v (skew g_ *v x0)). intros A B C. apply V3_eq; u3; field.
    + rewrite (vsum_delta _ (S (S (S k)))); [|intros q Hq Hn|lia].
      2:{ unfold f, fR. caseb. apply mv_zero_l. }
      unfold f, fR. caseb. rewrite mv_id. rewrite (Ec (S (S k))) by lia. f_equal; f_equal; lia.
Qed.

(** C19 *)
Lemma thm_loglinear K ip m s1 s2 t0 s1' s2' Phi xi Y Y' :
  wfp K s1 -> wfp K s2 -> stprop s1 = Some t0 -> stprop s2 = Some t0 -> sTheta s1 = sTheta s2 ->
  propagate_with ip m s1 = Ok s1' -> propagate_with ip m s2 = Ok s2' ->
  StateTransitionMatrix ip (rate ip m (gbias s1)) (accel ip m (gbias s1) (abias s1)) (i_t m - t0) s1 = Ok Phi ->
  inverse_of (3 + K) (sX s2) Y -> inverse_of (3 + K) (sX s2') Y' -> nr xi = (3 + 3 * K)%nat ->
  is_expm (hat K xi) (inv_error (ip_err ip) (sX s1) Y) ->
  is_expm (hat K (group_part K Phi *M xi)) (inv_error (ip_err ip) (sX s1') Y').
Proof.
  intros W1 W2 T1 T2 HT H1 H2 HPhi HY HY' Hxi H.
  rewrite (STM_ok K) in HPhi by auto. injection HPhi as <-.
  pose proof (step_eq K ip m s1 t0 W1 T1) as E1. pose proof (step_eq K ip m s2 t0 W2 T2) as E2. cbv zeta in E1, E2.
  rewrite E1 in H1. rewrite E2 in H2. injection H1 as <-. injection H2 as <-. cbn [sX] in *.
  assert (gbias s2 = gbias s1) as Eg by (unfold gbias; rewrite HT; reflexivity).
  assert (abias s2 = abias s1) as Ea by (unfold abias; rewrite HT; reflexivity).
  rewrite Eg, Ea in HY'.
  pose proof (wf_X _ _ (wp_wf _ _ W1)) as X1. pose proof (wf_X _ _ (wp_wf _ _ W2)) as X2.
  apply (inverse_of_sekinv K) in HY; auto. apply (inverse_of_sekinv K) in HY'; [|apply stepX_SEK; auto]. subst Y Y'.
  apply loglinear; auto. apply (wp_K _ _ W1).
Qed.

(** ** C54: transition matrices of the two conventions are conjugate *)
Definition fA (K : nat) (X : mat) (i j : nat) : M3 :=
  if Nat.eqb i j then (if (i <=? K)%nat then rot X else mid)
  else if (Nat.eqb j 0 && (i <=? K)%nat) then skew (col X (i - 1)) *m rot X else mzero.
Lemma AdB_blk K X : AdB K X = blk (3 + K) (fA K X).
Proof.
  apply blk_eq; mdim; try lia. intros i j Hi Hj. apply M3_ext; intros a b Ha Hb. rewrite mget_getM3 by auto.
  rewrite ent_AdB by lia. unfold fA.
  destruct (Nat.ltb_spec (3 * i + a) (3 + 3 * K)), (Nat.ltb_spec (3 * j + b) (3 + 3 * K)); cbn [andb].
  - unfold Ad, adj. rewrite ent_mk by lia. destruct (divmod3 i a Ha) as [-> ->]. destruct (divmod3 j b Hb) as [-> ->].
    caseb; cbn [andb]; caseb; reflexivity.
  - caseb; cbn [andb]; rewrite ?mget_zero; reflexivity.
  - caseb; cbn [andb]; caseb; rewrite ?mget_zero; try reflexivity.
  - destruct (Nat.eqb_spec (3 * i + a) (3 * j + b)) as [E|E].
    + assert (i = j /\ a = b) as [-> ->] by lia. rewrite Nat.eqb_refl. caseb. destruct b as [|[|[|b]]]; try lia; reflexivity.
    + destruct (Nat.eqb_spec i j) as [->|Hij].
      * caseb. destruct a as [|[|[|a]]], b as [|[|[|b]]]; try lia; reflexivity.
      * caseb; cbn [andb]; rewrite ?mget_zero; reflexivity.
Qed.

Lemma G0_jlT u : expSO3 u *m mtr (jl u) = jl u.
Proof. rewrite <- expR_jlT, mmul_assoc, SO3_r by apply expSO3_SO3. apply mmul_id_l. Qed.

Lemma Phi_conj K en X w a dt : (2 <= K)%nat -> SEK K X ->
  Phi_of K RightInvariant en X w a dt *M AdB K X =
  AdB K (stepX K X w a dt) *M Phi_of K LeftInvariant en X w a dt.
Proof.
  intros HK HX. pose proof (SEK_SO3 _ _ HX) as SR. rewrite !AdB_blk. unfold Phi_of.
  set (G0 := expSO3 (dt *s w)). set (G1 := jl (dt *s w)). set (G2 := g2 (dt *s w)).
  assert (SO3 G0) as SG by apply expSO3_SO3. pose proof (G0_jlT (dt *s w)) as GJ. fold G0 G1 in GJ.
  set (P25 := Phi25L_of w a dt (mtr G0) (mtr G2)). set (P35 := Phi35L_of w a dt (mtr G0) (g3 (vneg (dt *s w)))).
  set (X' := stepX K X w a dt).
  assert (rot X' = rot X *m G0) as RX by apply rot_aff.
  assert (col X' 0 = col X 0 +v dt *s (rot X *m G1 *v a +v g_)) as C0 by (unfold X', stepX; rewrite col_aff by lia; reflexivity).
  assert (col X' 1 = col X 1 +v dt *s col X 0 +v (dt * dt) *s (rot X *m G2 *v a +v (1 / 2) *s g_)) as C1
    by (unfold X', stepX; rewrite col_aff by lia; reflexivity).
  assert (forall k, (2 <= k < K)%nat -> col X' k = col X k) as Ck.
  { intros k Hk. unfold X', stepX. rewrite col_aff by lia. destruct k as [|[|k]]; try lia. reflexivity. }
  assert (forall u, skew (rot X *v u) *m rot X = rot X *m skew u) as SK.
  { intros u. rewrite SO3_skew by auto. rewrite <- mmul_assoc. destruct SR as [SR _]. rewrite SR. apply mmul_id_r. }
  assert (rot X *m G0 *m mtr G0 = rot X) as RG by (rewrite <- mmul_assoc, SO3_r by auto; apply mmul_id_r).
  assert (rot X *m G0 *m mtr G1 = rot X *m G1) as RGJ by (rewrite <- mmul_assoc, GJ; reflexivity).
  clearbody X'. rewrite !blk_mult. apply blk_ext. intros i j Hi Hj.
  (* right-hand side *)
  assert (forall g, msum (3 + K) (fun k => fA K X' i k *m g k) =
    if (i <=? K)%nat then (if Nat.eqb i 0 then rot X *m G0 *m g 0%nat else skew (col X' (i - 1)) *m (rot X *m G0) *m g 0%nat +m rot X *m G0 *m g i)
    else g i) as ER.
  { intros g. destruct (Nat.leb_spec i K) as [L|L].
    - destruct (Nat.eqb_spec i 0) as [->|N].
      + rewrite (msum_delta _ 0); [|intros k Hk Hn|lia].
        * unfold fA. caseb. rewrite RX. reflexivity.
        * unfold fA. caseb. cbn [andb]. apply mmul_zero_l.
      + rewrite (msum_two _ 0 i); [|intros k Hk Hn Hn2|lia|lia].
        * unfold fA. caseb. cbn [andb Nat.eqb]. rewrite RX. reflexivity.
        * unfold fA. caseb. cbn [andb]. apply mmul_zero_l.
    - rewrite (msum_delta _ i); [|intros k Hk Hn|lia].
      + unfold fA. caseb. apply mmul_id_l.
      + unfold fA. caseb; cbn [andb]; apply mmul_zero_l. }
  rewrite ER. clear ER.
  destruct (Nat.eq_dec j 0) as [->|Hj0].
  - (* column 0 *)
    destruct i as [|[|[|i]]].
    + rewrite (msum_delta _ 0); [|intros k Hk Hn|lia].
      * unfold fR, fL, fA. caseb. rewrite RG. apply mmul_id_l.
      * unfold fR, fA. caseb; try (apply mmul_zero_r). destruct k; [lia|]. apply mmul_zero_l.
    + rewrite (msum_two _ 0 1); [|intros k Hk Hn Hn2|lia|lia].
      * unfold fR, fL, fA. caseb. cbn [Nat.eqb andb Nat.sub]. rewrite C0, mmul_id_l, !mmul_scal_l, !mmul_scal_r, mneg_mul_l.
        rewrite (mmul_assoc (skew _)). rewrite <- !(mmul_assoc (skew _ *m rot X)), SO3_r, mmul_id_r by auto.
        replace (rot X *m G0 *m mneg (mtr G0 *m skew (G1 *v a))) with (mneg (rot X *m skew (G1 *v a))).
        2:{ replace (mneg (mtr G0 *m skew (G1 *v a))) with (mtr G0 *m mneg (skew (G1 *v a))) by ring3.
            rewrite mmul_assoc, RG. ring3. }
        rewrite <- SK, <- mv_mul. generalize (rot X *m G1 *v a). intros u. unfold skew. ring3.
      * unfold fR, fA. caseb; cbn [andb]; try (apply mmul_zero_r). destruct k as [|[|k]]; try lia. apply mmul_zero_l.
    + rewrite msum_supp3; [|intros k Hk Hn|lia].
      * unfold fR, fL, fA. caseb. cbn [Nat.eqb andb Nat.sub]. rewrite C1, !mmul_id_l, !mmul_scal_l, !mmul_scal_r, mneg_mul_l.
        rewrite (mmul_assoc (skew (col X 1 +v _ +v _))). rewrite <- !(mmul_assoc (skew _ *m rot X)), SO3_r, mmul_id_r by auto.
        replace (rot X *m G0 *m mneg (mtr G0 *m skew (G2 *v a))) with (mneg (rot X *m skew (G2 *v a))).
        2:{ replace (mneg (mtr G0 *m skew (G2 *v a))) with (mtr G0 *m mneg (skew (G2 *v a))) by ring3.
            rewrite mmul_assoc, RG. ring3. }
        rewrite <- SK, <- mv_mul, mmul_id_l. generalize (rot X *m G2 *v a). intros u. unfold skew. apply M3_eq; u3; field.
      * unfold fR, fA. caseb; cbn [andb]; try (apply mmul_zero_r). destruct k as [|[|[|k]]]; try lia. apply mmul_zero_l.
    + destruct (Nat.leb_spec (S (S (S i))) K) as [L|L].
      * rewrite (msum_delta _ (S (S (S i)))); [|intros k Hk Hn|lia].
        -- unfold fR, fL, fA. caseb. cbn [Nat.eqb andb Nat.sub]. rewrite Ck by lia. rewrite mmul_id_l, mmul_zero_r.
           rewrite (mmul_assoc (skew _)), <- (mmul_assoc (skew _ *m rot X)), SO3_r, mmul_id_r by auto. ring3.
        -- unfold fR, fA. caseb; cbn [andb]; try (apply mmul_zero_r); apply mmul_zero_l.
      * rewrite msum_zero.
        -- unfold fL. caseb. reflexivity.
        -- intros k Hk. unfold fR, fA. caseb; cbn [andb]; try (apply mmul_zero_r); apply mmul_zero_l.
  - rewrite (msum_delta _ j); [|intros k Hk Hn|lia].
    2:{ unfold fA. caseb; cbn [andb]; apply mmul_zero_r. }
    destruct (Nat.leb_spec j K) as [Lj|Lj].
    + (* group column *) replace (fA K X j j) with (rot X) by (unfold fA; caseb; reflexivity).
      destruct (Nat.leb_spec i K) as [Li|Li].
      * destruct i as [|[|[|i]]].
        -- unfold fR, fL. caseb. destruct j; [lia|]. cbn [Nat.eqb]. rewrite mmul_zero_l, mmul_zero_r. reflexivity.
        -- unfold fR, fL. caseb; cbn [Nat.eqb].
           ++ subst j. cbn [Nat.eqb]. rewrite RG, mmul_id_l. ring3.
           ++ destruct j as [|[|j]]; try lia. cbn [Nat.eqb]. ring3.
        -- unfold fR, fL. caseb; cbn [Nat.eqb].
           ++ subst j. rewrite RG. ring3.
           ++ destruct j as [|[|[|j]]]; try lia; [|ring3]. rewrite mmul_scal_r, RG. ring3.
        -- unfold fR, fL. caseb; cbn [Nat.eqb].
           ++ destruct j as [|j]; [lia|]. rewrite RG. ring3.
           ++ destruct j as [|j]; [lia|]. cbn [Nat.eqb]. ring3.
      * unfold fR, fL. caseb. destruct i as [|[|[|i]]]; try lia. apply mmul_zero_l.
    + (* bias column *) replace (fA K X j j) with mid by (unfold fA; caseb; reflexivity). rewrite mmul_id_r.
      destruct en.
      2:{ unfold fR, fL. caseb; rewrite ?mmul_zero_r; ring3. }
      destruct (Nat.leb_spec i K) as [Li|Li].
      * assert (j = K + 1 \/ j = K + 2)%nat as [-> | ->] by lia.
        -- destruct i as [|[|[|i]]].
           ++ unfold fR, fL. caseb. cbn [Nat.eqb]. rewrite mmul_scal_r. replace (rot X *m G0 *m mneg (mtr G1)) with (mneg (rot X *m G0 *m mtr G1)) by ring3.
              rewrite RGJ. ring3.
           ++ unfold fR, fL. caseb. cbn [Nat.eqb Nat.sub]. rewrite C0.
              replace (dt *ms mneg (mtr G1)) with (mneg (dt *ms mtr G1)) by ring3.
              replace (skew (col X 0 +v dt *s (rot X *m G1 *v a +v g_)) *m (rot X *m G0) *m mneg (dt *ms mtr G1))
                with (mneg (skew (col X 0 +v dt *s (rot X *m G1 *v a +v g_)) *m (dt *ms (rot X *m G0 *m mtr G1)))) by ring3.
              rewrite RGJ. replace (dt *ms (rot X *m G1) *v a) with (dt *s (rot X *m G1 *v a)) by ring3.
              generalize (rot X *m G1 *v a) (rot X *m G1) (rot X *m G0 *m P25). intros u A B.
              unfold skew. ring3.
           ++ unfold fR, fL. caseb. cbn [Nat.eqb Nat.sub]. rewrite C1.
              replace (dt *ms mneg (mtr G1)) with (mneg (dt *ms mtr G1)) by ring3.
              match goal with |- _ = skew ?c *m (rot X *m G0) *m mneg (dt *ms mtr G1) +m _ =>
                replace (skew c *m (rot X *m G0) *m mneg (dt *ms mtr G1)) with (mneg (skew c *m (dt *ms (rot X *m G0 *m mtr G1)))) by ring3 end.
              rewrite RGJ. replace ((dt * dt) *ms (rot X *m G2) *v a) with ((dt * dt) *s (rot X *m G2 *v a)) by ring3.
              generalize (rot X *m G2 *v a) (rot X *m G1) (rot X *m G0 *m P35). intros u A B.
              unfold skew. apply M3_eq; u3; field.
           ++ unfold fR, fL. caseb. cbn [Nat.eqb]. rewrite Ck by lia.
              replace (dt *ms mneg (mtr G1)) with (mneg (dt *ms mtr G1)) by ring3.
              match goal with |- _ = skew ?c *m (rot X *m G0) *m mneg (dt *ms mtr G1) +m _ =>
                replace (skew c *m (rot X *m G0) *m mneg (dt *ms mtr G1)) with (mneg (skew c *m (dt *ms (rot X *m G0 *m mtr G1)))) by ring3 end.
              rewrite RGJ, mmul_zero_r. generalize (rot X *m G1). intros A. ring3.
        -- destruct i as [|[|[|i]]].
           ++ unfold fR, fL. caseb. cbn [Nat.eqb]. ring3.
           ++ unfold fR, fL. caseb. cbn [Nat.eqb]. rewrite mmul_zero_r, mmul_scal_r.
              replace (rot X *m G0 *m mneg (mtr G1)) with (mneg (rot X *m G0 *m mtr G1)) by ring3. rewrite RGJ. ring3.
           ++ unfold fR, fL. caseb. cbn [Nat.eqb]. rewrite mmul_zero_r, mmul_scal_r, mneg_mul_l.
              replace (rot X *m G0 *m mneg (mtr G0 *m G2)) with (mneg (rot X *m G0 *m (mtr G0 *m G2))) by ring3.
              rewrite (mmul_assoc (rot X *m G0)), RG. ring3.
           ++ unfold fR, fL. caseb. cbn [Nat.eqb]. rewrite !mmul_zero_r. ring3.
      * unfold fR, fL. caseb; try reflexivity; destruct i as [|[|[|i]]]; try lia; caseb; reflexivity.
Qed.

Lemma next_cov_conv K ip s w a dt : wfp K s ->
  let A := AdB K (sX s) in let A' := AdB K (stepX K (sX s) w a dt) in
  next_cov K (set_err ip RightInvariant) (as_right K s) w a dt =
  A' *M next_cov K (set_err ip LeftInvariant) s w a dt *M mT A'.
Proof.
  intros W A A'. pose proof W as [[WX WT1 WT2 WP1 WP2] HK HT HQ1 HQ2].
  assert (prior_cov K (set_err ip RightInvariant) (as_right K s) w a dt =
    A' *M prior_cov K (set_err ip LeftInvariant) s w a dt *M mT A') as E.
  { unfold prior_cov, as_right. cbn [ip_err set_err ip_enable sX set_P sP sQc NG]. rewrite L2R_AdB. fold A.
    change (Qfull K (set_err ip RightInvariant) (sQc s)) with (Qfull K ip (sQc s)).
    change (Qfull K (set_err ip LeftInvariant) (sQc s)) with (Qfull K ip (sQc s)).
    pose proof (Phi_conj K (ip_enable ip) (sX s) w a dt HK WX) as C. fold A A' in C.
    unfold NG. fold A. set (PR := Phi_of K RightInvariant (ip_enable ip) (sX s) w a dt) in *.
    set (PL := Phi_of K LeftInvariant (ip_enable ip) (sX s) w a dt) in *.
    assert (nr PL = 9 + 3 * K)%nat as DL1 by apply nr_Phi. assert (nc PL = 9 + 3 * K)%nat as DL2 by apply nc_Phi.
    assert (nr PR = 9 + 3 * K)%nat as DR1 by apply nr_Phi. assert (nc PR = 9 + 3 * K)%nat as DR2 by apply nc_Phi.
    assert (nr A = 9 + 3 * K)%nat as DA1 by reflexivity. assert (nc A = 9 + 3 * K)%nat as DA2 by reflexivity.
    assert (nr A' = 9 + 3 * K)%nat as DB1 by reflexivity. assert (nc A' = 9 + 3 * K)%nat as DB2 by reflexivity.
    rewrite (mmult_eye_r PL) by auto. rewrite C.
    replace (PR *M (A *M sP s *M mT A) *M mT PR) with (A' *M PL *M sP s *M mT (A' *M PL)).
    2:{ rewrite <- C, (mT_mult PR A) by congruence. rewrite !mmult_assoc. reflexivity. }
    rewrite (mT_mult A' PL) by congruence. set (Q := Qfull K ip (sQc s)).
    assert (nr Q = 9 + 3 * K)%nat as DQ1 by (unfold Q; rewrite nr_Qfull; auto).
    assert (nc Q = 9 + 3 * K)%nat as DQ2 by (unfold Q; rewrite nc_Qfull; auto).
    clearbody PL PR A A' Q.
    rewrite mmult_plus_r, mmult_plus_l by mdim. rewrite mmult_scl_r, mmult_scl_l, !mmult_assoc. reflexivity. }
  unfold next_cov. cbn [ip_enable set_err]. destruct (ip_enable ip); [exact E|]. rewrite E. unfold A'. apply mask_AdB_gen.
  - unfold prior_cov. mdim.
  - unfold prior_cov. mdim.
Qed.

Lemma as_right_wfp K s : wfp K s -> wfp K (as_right K s).
Proof.
  intros [[WX WT1 WT2 WP1 WP2] HK HT HQ1 HQ2]. rewrite L2R_AdB || idtac.
  unfold as_right. split; auto. split; auto; cbn [sP set_P]; rewrite ?L2R_AdB; mdim.
Qed.

Lemma step_conv K ip m s t0 sl : wfp K s -> stprop s = Some t0 ->
  propagate_with (set_err ip LeftInvariant) m s = Ok sl ->
  propagate_with (set_err ip RightInvariant) m (as_right K s) = Ok (as_right K sl).
Proof.
  intros W Ht H. pose proof (step_eq K (set_err ip LeftInvariant) m s t0 W Ht) as E1. cbv zeta in E1. rewrite E1 in H.
  injection H as <-.
  pose proof (step_eq K (set_err ip RightInvariant) m (as_right K s) t0 (as_right_wfp K s W) Ht) as E2. cbv zeta in E2.
  rewrite E2. clear E1 E2. change (gbias (as_right K s)) with (gbias s). change (abias (as_right K s)) with (abias s).
  rewrite next_cov_conv by auto. rewrite <- !L2R_AdB. reflexivity.
Qed.

(** C54 *)
Lemma fold_conv K ip used : forall s t0 sl, wfp K s -> stprop s = Some t0 ->
  foldM (fun s m => propagate_with (set_err ip LeftInvariant) m s) s used = Ok sl ->
  foldM (fun s m => propagate_with (set_err ip RightInvariant) m s) (as_right K s) used = Ok (as_right K sl).
Proof.
  induction used as [|m u IH]; intros s t0 sl W Ht H; cbn [foldM] in *; [injection H as <-; reflexivity|].
  apply bind_inv in H. destruct H as (s1 & H1 & H2). rewrite (step_conv K ip m s t0 s1 W Ht H1). cbn [bind].
  destruct (step_wfp K _ m s t0 s1 W Ht H1) as (W1 & Ht1 & _). apply (IH s1 (i_t m)); auto.
Qed.
Lemma thm_run_convention K bs : forall ip s t0 n ipl sl, wfp K s -> stprop s = Some t0 ->
  run (set_err ip LeftInvariant) s bs = Ok (n, ipl, sl) ->
  exists ipr, run (set_err ip RightInvariant) (as_right K s) bs = Ok (n, ipr, as_right K sl) /\
    ipr = set_err ipl RightInvariant.
Proof.
  induction bs as [|b bs IH]; intros ip s t0 n ipl sl W Ht H; cbn [run] in *.
  - injection H as <- <- <-. eexists; split; reflexivity.
  - unfold Propagate in *. cbn [ip_queue set_queue set_err] in *.
    destruct (ip_queue ip ++ b) as [|x q] eqn:Eq.
    + cbn [bind] in *. apply bind_inv in H. destruct H as ([[n1 ip1] s1] & H1 & H2). injection H2 as <- <- <-.
      change (set_queue (set_err ip LeftInvariant) []) with (set_err (set_queue ip []) LeftInvariant) in H1.
      change (set_queue (set_err ip RightInvariant) []) with (set_err (set_queue ip []) RightInvariant).
      destruct (IH _ _ _ _ _ _ W Ht H1) as (ipr & R1 & R2). rewrite R1. cbn [bind]. eauto.
    + cbn [ip_prev set_queue set_err] in *. destruct (ip_prev ip) as [m|] eqn:Ep; [|discriminate]. cbn [of_opt bind] in *.
      apply bind_inv in H. destruct H as ([[ok ip1] s1] & H1 & H2).
      apply bind_inv in H1. destruct H1 as (s1' & H1 & H3). injection H3 as <- <- <-.
      apply bind_inv in H2. destruct H2 as ([[n1 ip1] s2] & H2 & H3). injection H3 as <- <- <-.
      change (set_prev (set_queue (set_queue (set_err ip LeftInvariant) (x :: q)) q) x)
        with (set_err (set_prev (set_queue ip q) x) LeftInvariant) in *.
      change (set_prev (set_queue (set_queue (set_err ip RightInvariant) (x :: q)) q) x)
        with (set_err (set_prev (set_queue ip q) x) RightInvariant).
      rewrite (step_conv K _ m s t0 s1' W Ht H1). cbn [bind].
      destruct (step_wfp K _ m s t0 s1' W Ht H1) as (W1 & Ht1 & _).
      destruct (IH _ _ _ _ _ _ W1 Ht1 H2) as (ipr & R1 & R2). rewrite R1. cbn [bind]. eauto.
Qed.
