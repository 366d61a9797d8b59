(** Property theorems about src/math/lie_group.cpp (C01 - C04). *)
From Coq Require Import Reals ZArith List Bool Lia Lra.
From Verif Require Import Res Vec3 Mat LieGroup MatInv Psd Spec LieSO3 LieSEK LieThms.
Local Open Scope R_scope.

(** C01: [skew w] is the matrix of the cross product with w. *)
Theorem C01_skew_is_cross : forall w, is_cross_matrix (skew w) w.
Proof. exact skew_is_cross. Qed.
Print Assumptions C01_skew_is_cross.

(** C01: for every w, Exp_SO3(w) succeeds, is a rotation, has inverse Exp_SO3(-w) and fixes w. *)
Theorem C01_exp_is_rotation : forall w, exists A,
  Exp_SO3 w = Ok A /\ SO3 A /\ Exp_SO3 (vneg w) = Ok (mtr A) /\ A *v w = w.
Proof. exact thm_exp_rotation. Qed.
Print Assumptions C01_exp_is_rotation.

(** C01: left and right Jacobians. *)
Theorem C01_jacobians : forall w, exists A J Jr,
  Exp_SO3 w = Ok A /\ LeftJacobian_SO3 w = Ok J /\ RightJacobian_SO3 w = Ok Jr /\
  Jr = mtr J /\ LeftJacobian_SO3 (vneg w) = Ok Jr /\ A *m Jr = J /\
  (/ 10 ^ 10 <= vnorm w -> skew w *m J = A -m mid) /\
  (vnorm w < / 10 ^ 10 -> forall i j, (i < 3)%nat -> (j < 3)%nat ->
     Rabs (mget (skew w *m J -m (A -m mid)) i j) <= vnorm w).
Proof. exact thm_jacobians. Qed.
Print Assumptions C01_jacobians.

(** C02: the closed forms are the sums of the series. *)
Theorem C02_gamma_is_series : forall w m, (0 <= m <= 20)%Z -> / 10 ^ 10 <= vnorm w ->
  exists G, Gamma_SO3 w m = Ok G /\
    matrix_series3 (fun n => / INR (fact (n + Z.to_nat m))) (skew w) G.
Proof. exact thm_gamma_series. Qed.
Print Assumptions C02_gamma_is_series.

Theorem C02_gamma_small_angle : forall w m, (0 <= m <= 20)%Z -> vnorm w < / 10 ^ 10 ->
  exists G G', Gamma_SO3 w m = Ok G' /\
    matrix_series3 (fun n => / INR (fact (n + Z.to_nat m))) (skew w) G /\
    forall i j, (i < 3)%nat -> (j < 3)%nat -> Rabs (mget G i j - mget G' i j) <= 3 * vnorm w.
Proof. exact thm_gamma_small. Qed.
Print Assumptions C02_gamma_small_angle.

Theorem C02_gamma_rejects : forall w m,
  ((m < 0)%Z -> Gamma_SO3 w m = Fail AssertFail) /\ ((20 < m)%Z -> Gamma_SO3 w m = Fail IntOverflow).
Proof. exact thm_gamma_reject. Qed.
Print Assumptions C02_gamma_rejects.

(** both hypotheses are met: |(3,0,4)| = 5 is above, |(0,0,0)| = 0 below the threshold *)
Example C02_hyps : vnorm (mkV 3 0 4) = 5 /\ TOLERANCE <= 5 /\ vnorm vzero = 0 /\ 0 < TOLERANCE.
Proof.
  unfold vnorm, vdot, vzero, TOLERANCE; simpl. repeat split.
  - replace (3 * 3 + 0 * 0 + 4 * 4) with (5 * 5) by ring. apply sqrt_square; lra.
  - lra.
  - replace (0 * 0 + 0 * 0 + 0 * 0) with 0 by ring. apply sqrt_0.
  - lra.
Qed.

(** C03: for every K and every tangent vector of size 3+3K. *)
Theorem C03_exp_sek3_group : forall K v, nr v = (3 + 3 * K)%nat -> nc v = 1%nat -> exists X Y A J,
  Exp_SEK3 v = Ok X /\ SEK K X /\
  Exp_SEK3 (mopp v) = Ok Y /\ inverse_of (3 + K) X Y /\
  Exp_SO3 (getV3 v 0 0) = Ok A /\ LeftJacobian_SO3 (getV3 v 0 0) = Ok J /\ rot X = A /\
  forall k, (k < K)%nat -> col X k = J *v getV3 v (3 + 3 * k) 0.
Proof. exact thm_expsek_group. Qed.
Print Assumptions C03_exp_sek3_group.

Theorem C03_exp_sek3_is_matrix_exponential : forall K v,
  nr v = (3 + 3 * K)%nat -> nc v = 1%nat -> / 10 ^ 10 <= vnorm (getV3 v 0 0) ->
  exists X, Exp_SEK3 v = Ok X /\ is_expm (hat K v) X.
Proof. exact thm_expsek_expm. Qed.
Print Assumptions C03_exp_sek3_is_matrix_exponential.

Example C03_hyps : exists v, nr v = (3 + 3 * 2)%nat /\ nc v = 1%nat /\ / 10 ^ 10 <= vnorm (getV3 v 0 0).
Proof.
  exists (mk 9 1 (fun i _ => if Nat.eqb i 0 then 3 else if Nat.eqb i 2 then 4 else 1)).
  split; [reflexivity|]. split; [reflexivity|].
  unfold vnorm. replace (vdot _ _) with (26 : R).
  - apply Rle_trans with 1; [unfold TOLERANCE; simpl; lra|].
    rewrite <- sqrt_1. apply sqrt_le_1; lra.
  - unfold getV3, vdot, vmk; cbn [v0 v1 v2]. rewrite !ent_mk by lia. simpl. ring.
Qed.

(** C04: homomorphism, inverse, conjugation. *)
Theorem C04_adjoint : forall K X Y X', SEK K X -> SEK K Y -> inverse_of (3 + K) X X' ->
  exists AX AY AXY AX', Adjoint_SEK3 X = Ok AX /\ Adjoint_SEK3 Y = Ok AY /\
    Adjoint_SEK3 (X *M Y) = Ok AXY /\ Adjoint_SEK3 X' = Ok AX' /\
    AXY = AX *M AY /\ inverse_of (3 + 3 * K) AX AX' /\
    forall v, nr v = (3 + 3 * K)%nat -> nc v = 1%nat -> X *M hat K v *M X' = hat K (AX *M v).
Proof. exact thm_adjoint. Qed.
Print Assumptions C04_adjoint.

Example C04_hyps : exists X X', SEK 2 X /\ inverse_of 5 X X' /\ X <> meye 5.
Proof.
  exists (sek 2 mid (fun _ => mkV 1 2 3)), (sekinv 2 (sek 2 mid (fun _ => mkV 1 2 3))).
  assert (SEK 2 (sek 2 mid (fun _ => mkV 1 2 3))) as H by (apply SEK_sek, SO3_id).
  split; [exact H|]. split; [apply (sekinv_spec 2); exact H|].
  intros E. apply (f_equal (fun M => col M 0)) in E. rewrite col_aff in E by lia.
  change 5%nat with (3 + 2)%nat in E. rewrite aff_eye, col_aff in E by lia.
  apply (f_equal v0) in E. simpl in E. lra.
Qed.
