(** C18: the strapdown equations have exactly one solution, so "the" solution makes sense. *)
From Coq Require Import Reals ZArith List Bool Lia Lra.
From Coquelicot Require Import Coquelicot.
From Verif Require Import Res Vec3 Mat LieGroup MatInv Psd Spec LieSO3 LieSEK RobotState StateProofs Inekf SpecFilter
  InekfProofs Imu Propagation SpecProp Blk PropagationProofs PropagationThms PropagationExact PropagationODE.
Import ListNotations.
Local Open Scope R_scope.

Lemma mderiv0_const f : (forall t, mderiv f t mzero) -> forall t, f t = f 0.
Proof.
  intros H t. apply M3_ext. intros i j Hi Hj.
  destruct (deriv0_const (fun x => mget (f x) i j)) as [_ G]; [|apply G].
  intros x. specialize (H x i j Hi Hj). rewrite mget_zero in H. exact H.
Qed.
Lemma vderiv0_const f : (forall t, vderiv f t vzero) -> forall t, f t = f 0.
Proof.
  intros H t. apply V3_ext. intros i Hi.
  destruct (deriv0_const (fun x => vget (f x) i)) as [_ G]; [|apply G].
  intros x. specialize (H x i Hi). replace (vget vzero i) with 0 in H; [exact H|destruct i as [|[|[|i]]]; reflexivity].
Qed.
Lemma mderiv_tr f t D : mderiv f t D -> mderiv (fun x => mtr (f x)) t (mtr D).
Proof.
  intros H i j Hi Hj. assert (forall M : M3, mget (mtr M) i j = mget M j i) as E
    by (intros M; destruct i as [|[|[|i]]], j as [|[|[|j]]]; try lia; reflexivity).
  rewrite E. specialize (H j i Hj Hi). apply is_derive_Reals. apply is_derive_Reals in H.
  eapply is_derive_ext; [|exact H]. intros x. cbv beta. symmetry. apply E.
Qed.
Lemma vderiv_sub f g t D E : vderiv f t D -> vderiv g t E -> vderiv (fun x => f x -v g x) t (D -v E).
Proof.
  intros H1 H2 i Hi. assert (forall u v : V3, vget (u -v v) i = vget u i - vget v i) as V
    by (intros u v; destruct i as [|[|[|i]]]; try lia; reflexivity).
  rewrite V. pose proof (derivable_pt_lim_minus _ _ _ _ _ (H1 i Hi) (H2 i Hi)) as M. apply is_derive_Reals. apply is_derive_Reals in M.
  eapply is_derive_ext; [|exact M]. intros x. cbv beta. symmetry. apply V.
Qed.

Lemma rot_unique w A B : vnorm w <> 0 \/ w = vzero -> (forall t, mderiv A t (A t *m crossm w)) -> A 0 = B -> forall t, A t = flowR w B t.
Proof.
  intros _ H HB t. unfold flowR. destruct (Req_EM_T (vnorm w) 0) as [E|E].
  - apply vnorm_0_inv in E. subst w. rewrite <- HB. apply mderiv0_const. intros x. specialize (H x).
    rewrite crossm_skew, skew_zero, mmul_zero_r in H. exact H.
  - assert (forall t, mtr (eR w t) *m eR w t = mid) as O.
    { intros x. unfold eR. rewrite pw_tr, pw_mul by auto. rewrite <- (mmul_id_r mid).
      replace (mid *m mid) with (pw w 1 0 0) by (unfold pw; ring3). apply pw_ext.
      - ring.
      - ring.
      - pose proof (sin2_cos2 (vnorm w * x)) as SC. unfold Rsqr in SC. 
        set (sn := sin (vnorm w * x)) in *. set (cs := cos (vnorm w * x)) in *. 
        assert (cs * cs = 1 - sn * sn) as C2 by lra. field_simplify; auto.
        replace (cs ^ 2) with (1 - sn * sn) by (rewrite <- C2; ring). field. auto. }
    assert (forall t, A t *m mtr (eR w t) = A 0 *m mtr (eR w 0)) as C.
    { apply (mderiv0_const (fun x => A x *m mtr (eR w x))). intros x.
      apply (mderiv_eq _ _ (A x *m crossm w *m mtr (eR w x) +m A x *m mtr (eR w x *m skew w))).
      - rewrite mtr_mul, crossm_skew. replace (mtr (skew w)) with (mneg (skew w)) by (unfold skew; ring3).
        generalize (A x) (mtr (eR w x)) (skew w). intros. ring3.
      - apply (mderiv_mul A (fun x => mtr (eR w x))); [apply H|]. apply mderiv_tr, eR_deriv; auto. }
    assert (eR w 0 = mid) as E0.
    { unfold eR. rewrite Rmult_0_r, sin_0, cos_0. unfold pw. apply M3_eq; u3; field; auto. }
    rewrite <- HB. specialize (C t). rewrite E0 in C. apply (f_equal (fun M => M *m eR w t)) in C.
    rewrite <- mmul_assoc, O, mmul_id_r in C. rewrite C. f_equal. unfold mid. ring3.
Qed.

Lemma strapdown_unique w a Rf vf pf : strapdown w a Rf vf pf ->
  forall t, Rf t = flowR w (Rf 0) t /\ vf t = flowv w a (Rf 0) (vf 0) t /\ pf t = flowp w a (Rf 0) (vf 0) (pf 0) t.
Proof.
  intros H. set (R0 := Rf 0). set (u := vf 0). set (q := pf 0).
  assert (forall t, Rf t = flowR w R0 t) as ER.
  { apply rot_unique; [|intros t; apply H|reflexivity]. destruct (Req_EM_T (vnorm w) 0) as [E|E]; [right; apply vnorm_0_inv; auto|left; auto]. }
  destruct (flow_0 w a R0 u q) as (F1 & F2 & F3). pose proof (flow_strapdown w a R0 u q) as FS.
  assert (forall t, vf t = flowv w a R0 u t) as EV.
  { intros t. assert (vf t -v flowv w a R0 u t = vf 0 -v flowv w a R0 u 0) as E.
    { apply (vderiv0_const (fun x => vf x -v flowv w a R0 u x)). intros x.
      destruct (H x) as (_ & D1 & _). destruct (FS x) as (_ & D2 & _). rewrite <- ER in D2.
      replace vzero with ((Rf x *v a +v gravity) -v (Rf x *v a +v gravity)) by (generalize (Rf x *v a +v gravity); intros; ring3).
      apply vderiv_sub; auto. }
    rewrite F2 in E. fold u in E. apply (f_equal (fun x => x +v flowv w a R0 u t)) in E.
    generalize dependent (flowv w a R0 u t). intros V E. transitivity (vf t -v V +v V); [ring3|]. rewrite E. ring3. }
  intros t. split; [apply ER|]. split; [apply EV|].
  assert (pf t -v flowp w a R0 u q t = pf 0 -v flowp w a R0 u q 0) as E.
  { apply (vderiv0_const (fun x => pf x -v flowp w a R0 u q x)). intros x.
    destruct (H x) as (_ & _ & D1). destruct (FS x) as (_ & _ & D2). rewrite <- EV in D2.
    replace vzero with (vf x -v vf x) by (generalize (vf x); intros; ring3). apply vderiv_sub; auto. }
  rewrite F3 in E. fold q in E. apply (f_equal (fun x => x +v flowp w a R0 u q t)) in E.
  generalize dependent (flowp w a R0 u q t). intros V E. transitivity (pf t -v V +v V); [ring3|]. rewrite E. ring3.
Qed.

(** C18, any solution *)
Lemma thm_strapdown_unique K ip m s t0 s' Rf vf pf : wfp K s -> stprop s = Some t0 -> propagate_with ip m s = Ok s' ->
  let w := rate ip m (gbias s) in let a := accel ip m (gbias s) (abias s) in let dt := i_t m - t0 in
  (w = vzero \/ TOLERANCE <= vnorm (dt *s w)) ->
  strapdown w a Rf vf pf -> Rf 0 = rot (sX s) -> vf 0 = col (sX s) 0 -> pf 0 = col (sX s) 1 ->
  rot (sX s') = Rf dt /\ col (sX s') 0 = vf dt /\ col (sX s') 1 = pf dt.
Proof.
  intros W Ht H w a dt Hex HS H1 H2 H3. pose proof (step_eq K ip m s t0 W Ht) as E. cbv zeta in E. fold w a dt in E.
  rewrite E in H. injection H as <-. cbn [sX]. pose proof (wp_K _ _ W) as HK.
  destruct (strapdown_unique w a Rf vf pf HS dt) as (E1 & E2 & E3). rewrite E1, E2, E3, H1, H2, H3.
  rewrite stepX_flow by exact Hex. rewrite rot_aff, !col_aff by lia. auto.
Qed.

(** C18, no discretisation error: a sample split in two with the same readings *)
Lemma thm_split K ip m1 m2 s t0 sa sb sc : wfp K s -> stprop s = Some t0 -> same_reading m1 m2 ->
  let w := rate ip m1 (gbias s) in
  let exact dt := w = vzero \/ TOLERANCE <= vnorm (dt *s w) in
  exact (i_t m1 - t0) -> exact (i_t m2 - i_t m1) -> exact (i_t m2 - t0) ->
  propagate_with ip m1 s = Ok sa -> propagate_with ip m2 sa = Ok sb -> propagate_with ip m2 s = Ok sc ->
  sX sb = sX sc /\ sTheta sb = sTheta sc /\ stprop sb = stprop sc.
Proof.
  intros W Ht (Sw & Sa & _) w exact E1 E2 E3 Ha Hb Hc. unfold exact, w in *.
  destruct (step_wfp K ip m1 s t0 sa W Ht Ha) as (Wa & Ta & _ & Tha & _).
  destruct (step_wfp K ip m2 sa _ sb Wa Ta Hb) as (_ & Tb & _ & Thb & _).
  destruct (step_wfp K ip m2 s t0 sc W Ht Hc) as (_ & Tc & _ & Thc & _).
  split; [|split; congruence].
  pose proof (step_eq K ip m1 s t0 W Ht) as Ea. pose proof (step_eq K ip m2 sa _ Wa Ta) as Eb. pose proof (step_eq K ip m2 s t0 W Ht) as Ec.
  cbv zeta in Ea, Eb, Ec. rewrite Ea in Ha. rewrite Eb in Hb. rewrite Ec in Hc.
  injection Ha as Ha. injection Hb as Hb. injection Hc as Hc.
  assert (gbias sa = gbias s) as G1 by (unfold gbias; rewrite Tha; reflexivity).
  assert (abias sa = abias s) as G2 by (unfold abias; rewrite Tha; reflexivity).
  assert (rate ip m2 (gbias s) = rate ip m1 (gbias s)) as Q1 by (unfold rate; rewrite Sw; reflexivity).
  assert (accel ip m2 (gbias s) (abias s) = accel ip m1 (gbias s) (abias s)) as Q2 by (unfold accel; rewrite Q1, Sa; reflexivity).
  rewrite G1, G2, Q1, Q2 in Hb. rewrite Q1, Q2 in Hc.
  rewrite <- Hb, <- Hc. cbn [sX]. rewrite <- Ha. cbn [sX].
  replace (i_t m2 - t0) with ((i_t m1 - t0) + (i_t m2 - i_t m1)) by ring.
  apply stepX_add; auto; try apply W. replace (i_t m1 - t0 + (i_t m2 - i_t m1)) with (i_t m2 - t0) by ring. exact E3.
Qed.
