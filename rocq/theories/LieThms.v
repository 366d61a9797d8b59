(** Statements of the Lie-group properties in the form used by PropLie.v. *)
From Coq Require Import Reals ZArith List Bool Lia Lra Psatz.
From Verif Require Import Res Vec3 Mat LieGroup MatInv Psd Spec LieSO3 LieSEK.
Local Open Scope R_scope.

Lemma thm_exp_rotation w : exists A,
  Exp_SO3 w = Ok A /\ SO3 A /\ Exp_SO3 (vneg w) = Ok (mtr A) /\ A *v w = w.
Proof.
  exists (expSO3 w). unfold Exp_SO3. rewrite !Gamma0, expSO3_neg.
  repeat split; auto using expSO3_axis; apply expSO3_SO3.
Qed.
Lemma thm_jacobians w : exists A J Jr,
  Exp_SO3 w = Ok A /\ LeftJacobian_SO3 w = Ok J /\ RightJacobian_SO3 w = Ok Jr /\
  Jr = mtr J /\ LeftJacobian_SO3 (vneg w) = Ok Jr /\ A *m Jr = J /\
  (TOLERANCE <= vnorm w -> skew w *m J = A -m mid) /\
  (vnorm w < TOLERANCE -> forall i j, (i < 3)%nat -> (j < 3)%nat ->
     Rabs (mget (skew w *m J -m (A -m mid)) i j) <= vnorm w).
Proof.
  exists (expSO3 w), (jl w), (mtr (jl w)). unfold Exp_SO3, LeftJacobian_SO3, RightJacobian_SO3.
  rewrite Gamma0, !Gamma1, jl_neg. do 5 (split; [reflexivity|]). split.
  - rewrite <- expR_jlT, mmul_assoc, SO3_r by apply expSO3_SO3. apply mmul_id_l.
  - split; [apply skew_jl|apply skew_jl_small].
Qed.

Lemma thm_gamma_series w m : (0 <= m <= 20)%Z -> TOLERANCE <= vnorm w ->
  exists G, Gamma_SO3 w m = Ok G /\
    matrix_series3 (fun n => / INR (fact (n + Z.to_nat m))) (skew w) G.
Proof.
  intros Hm Hw. exists (Gam (Z.to_nat m) w). split; [apply Gamma_SO3_ok; auto|].
  apply Gam_series. pose proof TOLERANCE_pos; lra.
Qed.
Lemma thm_gamma_small w m : (0 <= m <= 20)%Z -> vnorm w < TOLERANCE ->
  exists G G', Gamma_SO3 w m = Ok G' /\
    matrix_series3 (fun n => / INR (fact (n + Z.to_nat m))) (skew w) G /\
    forall i j, (i < 3)%nat -> (j < 3)%nat -> Rabs (mget G i j - mget G' i j) <= 3 * vnorm w.
Proof.
  intros Hm Hw. destruct (Gamma_small_error w (Z.to_nat m) Hw) as (G & HG & HE).
  exists G, ((/ INR (fact (Z.to_nat m))) *ms mid). split; [apply Gamma_SO3_small; auto|]. auto.
Qed.
Lemma thm_gamma_reject w m :
  ((m < 0)%Z -> Gamma_SO3 w m = Fail AssertFail) /\ ((20 < m)%Z -> Gamma_SO3 w m = Fail IntOverflow).
Proof. split; [apply Gamma_SO3_neg|apply Gamma_SO3_big]. Qed.

Lemma thm_expsek_group K v : nr v = (3 + 3 * K)%nat -> nc v = 1%nat -> exists X Y A J,
  Exp_SEK3 v = Ok X /\ SEK K X /\
  Exp_SEK3 (mopp v) = Ok Y /\ inverse_of (3 + K) X Y /\
  Exp_SO3 (getV3 v 0 0) = Ok A /\ LeftJacobian_SO3 (getV3 v 0 0) = Ok J /\ rot X = A /\
  forall k, (k < K)%nat -> col X k = J *v getV3 v (3 + 3 * k) 0.
Proof.
  intros Hr Hc. exists (expSEK v), (expSEK (mopp v)), (expSO3 (getV3 v 0 0)), (jl (getV3 v 0 0)).
  split; [apply (Exp_SEK3_ok K); auto|]. split; [apply expSEK_SEK; auto|].
  split; [apply (Exp_SEK3_ok K); mdim|].
  split; [rewrite (expSEK_opp K) by auto; apply sekinv_spec, expSEK_SEK; auto|].
  split; [apply Gamma0|]. split; [apply Gamma1|].
  rewrite (expSEK_K K) by auto. split; [apply rot_aff|]. intros k Hk. rewrite col_aff by auto. reflexivity.
Qed.
Lemma thm_expsek_expm K v : nr v = (3 + 3 * K)%nat -> nc v = 1%nat -> TOLERANCE <= vnorm (getV3 v 0 0) ->
  exists X, Exp_SEK3 v = Ok X /\ is_expm (hat K v) X.
Proof.
  intros Hr Hc Hw. exists (expSEK v). split; [apply (Exp_SEK3_ok K); auto|apply expSEK_expm; auto].
Qed.

Lemma thm_adjoint K X Y X' : SEK K X -> SEK K Y -> inverse_of (3 + K) X X' ->
  exists AX AY AXY AX', Adjoint_SEK3 X = Ok AX /\ Adjoint_SEK3 Y = Ok AY /\
    Adjoint_SEK3 (X *M Y) = Ok AXY /\ Adjoint_SEK3 X' = Ok AX' /\
    AXY = AX *M AY /\ inverse_of (3 + 3 * K) AX AX' /\
    forall v, nr v = (3 + 3 * K)%nat -> nc v = 1%nat -> X *M hat K v *M X' = hat K (AX *M v).
Proof.
  intros HX HY HI. exists (Ad K X), (Ad K Y), (Ad K (X *M Y)), (Ad K X').
  pose proof (SEK_mult K X Y HX HY) as HXY.
  assert (X' = sekinv K X) as ->.
  { destruct (sekinv_spec K X HX) as (A1 & A2 & A3 & A4 & A5 & A6).
    destruct HI as (B1 & B2 & B3 & B4 & B5 & B6).
    rewrite <- (mmult_eye_r X' (3 + K)), <- A5, mmult_assoc, B6 by auto. apply mmult_eye_l; auto. }
  pose proof (SEK_inv K X HX) as HIX.
  assert (forall Z, SEK K Z -> Adjoint_SEK3 Z = Ok (Ad K Z)) as HA.
  { intros Z HZ. apply Adjoint_SEK3_ok; [apply HZ|]. rewrite (sek_rows _ _ HZ). lia. }
  rewrite !HA by auto. do 4 (split; [reflexivity|]).
  split; [apply Ad_mult; auto|]. split; [apply Ad_inv; auto|].
  intros v Hv _. apply Ad_conj; auto.
Qed.
