(** Odometry to velocity: exact for motions with constant twist. *)
From Coq Require Import Reals ZArith List Bool Arith Lia Lra.
From Verif Require Import Res Vec3 Mat MatInv Psd Spec LieGroup LieSO3 LieSEK RobotState StateProofs SpecFilter InekfProofs SpecProp Imu Propagation PropagationExact PropagationUniq VelCorr LegCorr ImuFilter Quat QuatThms Kinematics OdomExact Ros SpecRos.
Import ListNotations.
Local Open Scope R_scope.

Lemma nr_tf A p : nr (transform A p) = 4%nat. Proof. reflexivity. Qed.
Lemma nc_tf A p : nc (transform A p) = 4%nat. Proof. reflexivity. Qed.
Lemma tf_mul A p B q : transform A p *M transform B q = transform (A *m B) (A *v q +v p).
Proof.
  apply mat_ext; [reflexivity|reflexivity|]. intros i j Hi Hj. rewrite nr_mult in Hi. rewrite nc_mult in Hj. change (i < 4)%nat in Hi. change (j < 4)%nat in Hj.
  rewrite ent_mult by auto. change (nc (transform A p)) with 4%nat. cbn [sum]. unfold transform. rewrite !ent_mk by lia.
  destruct i as [|[|[|[|i]]]]; try lia; destruct j as [|[|[|[|j]]]]; try lia; cbn; ring.
Qed.
Lemma tf_eye : transform mid vzero = meye 4.
Proof.
  apply mat_ext; [reflexivity|reflexivity|]. intros i j Hi Hj. change (i < 4)%nat in Hi. change (j < 4)%nat in Hj. unfold transform. rewrite ent_mk, ent_eye by lia.
  destruct i as [|[|[|[|i]]]]; try lia; destruct j as [|[|[|[|j]]]]; try lia; reflexivity.
Qed.
Lemma tf_inv A p : SO3 A -> cinv (transform A p) = Ok (transform (mtr A) (vneg (mtr A *v p))).
Proof.
  intros S. unfold cinv. rewrite nr_tf, nc_tf. cbn [Nat.eqb]. rewrite (minv_unique _ (transform (mtr A) (vneg (mtr A *v p))) 4); try reflexivity.
  rewrite tf_mul, (proj1 S), <- tf_eye. f_equal. unfold vneg. ring3.
Qed.
Lemma tf_rot A p : getM3 (transform A p) 0 0 = A.
Proof. unfold getM3, mmk, transform. rewrite !ent_mk by lia. destruct A; reflexivity. Qed.
Lemma tf_col A p : getV3 (transform A p) 0 3 = p.
Proof. unfold getV3, vmk, transform. rewrite !ent_mk by lia. destruct p; reflexivity. Qed.

(** the logarithm of a motion with twist (w, v) over time dt *)
Lemma trace_eR w t : vnorm w <> 0 -> (m00 (eR w t) + m11 (eR w t) + m22 (eR w t) - 1) / 2 = cos (vnorm w * t).
Proof.
  intros N. pose proof (vnorm_sq w) as V. unfold vdot in V. unfold eR, pw, skew. set (th := vnorm w) in *. destruct w as [x y z]. cbn in *.
  set (c := cos (th * t)). set (s := sin (th * t)). transitivity (1 + (1 - c) / th ^ 2 * (- (x * x + y * y + z * z))); [field; auto|]. rewrite <- V. field. auto.
Qed.
Lemma axis_eR w t : vnorm w <> 0 -> mkV (m21 (eR w t) - m12 (eR w t)) (m02 (eR w t) - m20 (eR w t)) (m10 (eR w t) - m01 (eR w t)) = (2 * (sin (vnorm w * t) / vnorm w)) *s w.
Proof. intros N. unfold eR, pw, skew. generalize (sin (vnorm w * t) / vnorm w) ((1 - cos (vnorm w * t)) / vnorm w ^ 2). intros a b. destruct w as [x y z]. unfold vscal. cbn. f_equal; ring. Qed.
Lemma log_angle_id : log_angle mid = 0.
Proof. unfold log_angle, mid. cbn. replace ((1 + 1 + 1 - 1) / 2) with 1 by field. apply acos_1. Qed.
Lemma log4_twist w v t i : 0 < t -> vnorm w * t < PI -> (i < 3)%nat -> ent (log4 (transform (flowR w mid t) (int1 w t *v v))) i 3 = t * vget v i.
Proof.
  intros T B Hi. unfold log4. rewrite tf_rot, tf_col. rewrite ent_mk by lia. assert (Nat.ltb i 3 = true) as -> by (apply Nat.ltb_lt; exact Hi). cbn [Nat.ltb Nat.leb].
  assert (left_jacobian_inverse (log_rot (flowR w mid t)) (log_angle (flowR w mid t)) *v (int1 w t *v v) = t *s v) as ->.
  2:{ destruct i as [|[|[|i]]]; try lia; destruct v; reflexivity. }
  unfold flowR, int1. destruct (Req_EM_T (vnorm w) 0) as [E|E].
  - rewrite log_angle_id. unfold left_jacobian_inverse. destruct (Req_EM_T 0 0) as [_|C]; [|contradiction]. destruct v. unfold mid, mscal. ring3.
  - assert (mid *m eR w t = eR w t) as -> by (unfold mid; generalize (eR w t); intros M; destruct M; ring3).
    set (x := vnorm w * t). assert (0 < vnorm w) as VP by (pose proof (sqrt_pos (vdot w w)) as Q; unfold vnorm in *; lra). assert (0 < x < PI) as X by (unfold x; split; [nra|exact B]).
    assert (log_angle (eR w t) = x) as LA by (unfold log_angle; rewrite trace_eR by auto; fold x; apply acos_cos; lra).
    assert (0 < sin x) as SP by (apply sin_gt_0; lra).
    assert (log_rot (eR w t) = t *s w) as LR.
    { unfold log_rot. rewrite LA, axis_eR by auto. fold x. destruct (Req_EM_T x 0); [lra|]. destruct w as [a b c]. unfold vscal. cbn [v0 v1 v2]. unfold x in *. f_equal; field; repeat split; lra. }
    rewrite LA, LR. unfold left_jacobian_inverse. destruct (Req_EM_T x 0); [lra|].
    set (k := 1 / (x * x) - (1 + cos x) / (2 * x * sin x)). 
    assert (mid +m (- (1 / 2)) *ms skew (t *s w) +m k *ms (skew (t *s w) *m skew (t *s w)) = pw w 1 (- (t / 2)) (k * t ^ 2)) as ->.
    { unfold pw, skew. generalize k. intros k'. destruct w. unfold vscal, mid. unfold mscal, mmul, madd. cbn. f_equal; field. }
    assert (pw w 1 (- (t / 2)) (k * t ^ 2) *m J1 w t = pw w t 0 0) as Q.
    { unfold J1. rewrite pw_mul. fold x. pose proof (sin2_cos2 x) as SC. unfold Rsqr in SC. 
      assert (cos x * cos x = 1 - sin x * sin x) as C2 by lra. unfold k. revert C2 SP. generalize (sin x) (cos x). intros s c C2 SP.
      assert (t = x / vnorm w) as TX by (unfold x; field; auto). rewrite TX. clearbody x. clear - X C2 SP VP E. 
      apply pw_ext.
      - ring.
      - field_simplify; [|lra..]. replace (c ^ 2) with (1 - s * s) by (rewrite <- C2; ring). field. lra.
      - field_simplify; [|lra..]. replace (c ^ 2) with (1 - s * s) by (rewrite <- C2; ring). field. lra. }
    transitivity (pw w 1 (- (t / 2)) (k * t ^ 2) *m J1 w t *v v); [generalize (pw w 1 (- (t / 2)) (k * t ^ 2)) (J1 w t); intros; ring3|]. rewrite Q. unfold pw, skew. ring3.
Qed.

Lemma int1_deriv w t : mderiv (int1 w) t (flowR w mid t).
Proof.
  unfold int1, flowR. destruct (Req_EM_T (vnorm w) 0) as [E|E].
  - apply (mderiv_eq _ _ (1 *ms mid)); [unfold mid, mscal; cbn; f_equal; ring|]. apply mderiv_scal. apply derivable_pt_lim_id.
  - apply (mderiv_eq _ _ (eR w t)); [unfold mid; generalize (eR w t); intros M; destruct M; ring3|]. apply J1_deriv. exact E.
Qed.
Lemma int1_0 w : int1 w 0 = mzero.
Proof.
  unfold int1. destruct (Req_EM_T (vnorm w) 0) as [E|E]; [unfold mid, mscal, mzero; cbn; f_equal; ring|]. unfold J1. rewrite Rmult_0_r, sin_0, cos_0. replace ((1 - 1) / vnorm w ^ 2) with 0 by (field; auto). replace ((0 - 0) / vnorm w ^ 3) with 0 by (field; auto). unfold pw, mzero. ring3.
Qed.
Lemma twist_motion w v Rb pb t1 t2 : constant_twist w v Rb pb -> Rb t2 = Rb t1 *m flowR w mid (t2 - t1) /\ pb t2 = pb t1 +v Rb t1 *v (int1 w (t2 - t1) *v v).
Proof.
  intros [HR Hp]. assert (forall s, Rb (t1 + s) = Rb t1 *m flowR w mid s) as ER.
  { intros s. rewrite (rot_unique w (fun x => Rb (t1 + x)) (Rb t1)).
    - unfold flowR. destruct (Req_EM_T (vnorm w) 0); [rewrite mmul_id_r; reflexivity|]. rewrite mmul_assoc, mmul_id_r. reflexivity.
    - destruct (Req_EM_T (vnorm w) 0) as [Z|Z]; [right; apply vnorm_0_inv; exact Z|left; exact Z].
    - intros x. apply mshift, HR.
    - f_equal. ring. }
  assert (forall s, pb (t1 + s) = pb t1 +v Rb t1 *v (int1 w s *v v)) as EP.
  { intros s. set (g := fun s => pb (t1 + s) -v (Rb t1 *m int1 w s) *v v). assert (forall x, vderiv g x vzero) as G.
    { intros x. unfold g. replace vzero with (Rb (t1 + x) *v v -v (Rb t1 *m flowR w mid x) *v v) by (rewrite ER; generalize (Rb t1 *m flowR w mid x *v v); intros; ring3).
      apply vderiv_sub; [apply (vshift pb), Hp|]. apply (vderiv_mv (fun x => Rb t1 *m int1 w x)). apply mderiv_mul_l, int1_deriv. }
    pose proof (vderiv0_const g G s) as C. unfold g in C. rewrite int1_0, Rplus_0_r in C. apply (f_equal (fun u => u +v Rb t1 *m int1 w s *v v)) in C.
    transitivity (pb (t1 + s) -v Rb t1 *m int1 w s *v v +v Rb t1 *m int1 w s *v v); [generalize (Rb t1 *m int1 w s *v v) (pb (t1 + s)); intros; ring3|]. rewrite C. generalize (Rb t1) (int1 w s) (pb t1). intros. unfold mzero. ring3. }
  replace t2 with (t1 + (t2 - t1)) at 1 3 by ring. rewrite ER, EP. auto.
Qed.

Lemma upd_len {A} (l : list A) i x : length (upd l i x) = length l.
Proof. revert i. induction l; intros [|i]; cbn; auto. Qed.
Lemma upd_get {A} (l : list A) i x : (i < length l)%nat -> nth_error (upd l i x) i = Some x.
Proof. revert i. induction l; intros [|i] H; cbn in *; try lia; auto. apply IHl. lia. Qed.
Lemma upd_other {A} (l : list A) i j x : i <> j -> nth_error (upd l i x) j = nth_error l j.
Proof. revert i j. induction l; intros [|i] [|j] H; cbn; auto; try contradiction. Qed.
Definition os_inv (l : list osop) (o : odom_sub) : Prop :=
  length (os_prev o) = length (os_q o) /\ os_ext o = option_map (fun x => transform (toRotationMatrix (snd x)) (fst x)) (last_added l).
Lemma callback_meta o m id o1 : Odom2VelocityCallback o m id = Ok o1 -> (id < length (os_prev o))%nat /\ os_ext o1 = os_ext o /\ length (os_q o1) = length (os_q o) /\
  os_prev o1 = upd (os_prev o) id (Some (time_of (om_stamp m), transform (toRotationMatrix (om_q m)) (om_p m))).
Proof.
  unfold Odom2VelocityCallback, vec_at. destruct (nth_error (os_prev o) id) as [x|] eqn:E; [|discriminate]. cbn [of_opt bind]. assert (id < length (os_prev o))%nat as L by (apply nth_error_Some; congruence).
  destruct x as [[pt pT]|]; [|intros H; injection H as <-; auto].
  intros H. repeat (apply bind_inv in H; destruct H as (? & _ & H)). injection H as <-. cbn. rewrite upd_len. auto.
Qed.
Lemma last_added_snoc l x : last_added (l ++ [x]) = match x with OSAdd t q => Some (t, q) | OSMsg _ _ => last_added l end.
Proof. unfold last_added. rewrite fold_left_app. reflexivity. Qed.
Lemma os_run_inv l o : os_run ROSSubscriber_odom l = Ok o -> os_inv l o.
Proof.
  revert o. induction l as [|x l IH] using rev_ind; intros o H.
  - injection H as <-. split; reflexivity.
  - unfold os_run in H. rewrite foldM_app in H. apply bind_inv in H. destruct H as (o1 & H1 & H). cbn [foldM] in H. apply bind_inv in H. destruct H as (o2 & H2 & H). injection H as <-.
    destruct (IH o1 H1) as [I1 I2]. unfold os_inv. rewrite last_added_snoc. destruct x as [t q|m id]; cbn [os_step] in H2.
    + injection H2 as <-. cbn. rewrite !app_length. cbn. split; [lia|reflexivity].
    + destruct (callback_meta _ _ _ _ H2) as (_ & E1 & E2 & E3). rewrite E1, E3, upd_len. split; [lia|assumption].
Qed.
Lemma odom_core o id m1 m2 t q w v Rb pb : length (os_prev o) = length (os_q o) -> os_ext o = Some (transform (toRotationMatrix q) t) -> SO3 (toRotationMatrix q) ->
  let t1 := time_of (om_stamp m1) in let t2 := time_of (om_stamp m2) in
  nth_error (os_prev o) id = Some (Some (t1, transform (toRotationMatrix (om_q m1)) (om_p m1))) ->
  constant_twist w v Rb pb -> odom_reports m1 (toRotationMatrix q) t (Rb t1) (pb t1) -> odom_reports m2 (toRotationMatrix q) t (Rb t2) (pb t2) ->
  t1 < t2 -> vnorm w * (t2 - t1) < PI ->
  exists o2 vq, Odom2VelocityCallback o m2 id = Ok o2 /\ nth_error (os_q o) id = Some vq /\ nth_error (os_q o2) id = Some (vq ++ [mkVM t2 v]) /\
    forall id', id' <> id -> nth_error (os_q o2) id' = nth_error (os_q o) id'.
Proof.
  intros I1 I2 SE t1 t2 EP HT (S1 & R1 & P1) (S2 & R2 & P2) HLT HB. assert (id < length (os_prev o))%nat as L by (apply nth_error_Some; congruence).
  set (Ae := toRotationMatrix q) in *. set (A1 := toRotationMatrix (om_q m1)) in *. set (A2 := toRotationMatrix (om_q m2)) in *.
  destruct (nth_error (os_q o) id) as [vq|] eqn:EQ; [|apply nth_error_None in EQ; lia].
  assert (transform Ae t = transform Ae t) as _ by reflexivity.
  unfold Odom2VelocityCallback. unfold vec_at. rewrite EP. cbn [of_opt bind]. rewrite I2. cbn [of_opt bind]. fold A1 A2.
  rewrite (tf_inv Ae t SE). cbn [bind]. rewrite (tf_inv A1 (om_p m1) S1). cbn [bind]. 
  rewrite cmul_ok by reflexivity. cbn [bind]. rewrite tf_mul. rewrite cmul_ok by reflexivity. cbn [bind]. rewrite tf_mul. rewrite cmul_ok by reflexivity. cbn [bind]. rewrite tf_mul.
  destruct (Req_EM_T (time_of (om_stamp m2) - t1) 0) as [C|_]; [fold t2 in C; lra|]. cbn [check bind]. rewrite EQ. cbn [of_opt bind]. fold t2.
  match goal with |- context [log4 (transform ?M ?u)] => assert (M = flowR w mid (t2 - t1) /\ u = int1 w (t2 - t1) *v v) as [EM EU] end.
  { destruct (twist_motion w v Rb pb t1 t2 HT) as [M1 M2]. assert (SO3 (Rb t1)) as SR by (rewrite <- R1; apply SO3_mul; auto). split.
    - transitivity (mtr (Rb t1) *m Rb t2).
      + rewrite <- R1, <- R2, mtr_mul. rewrite !mmul_assoc. reflexivity.
      + rewrite M1, mmul_assoc, (proj1 SR). generalize (flowR w mid (t2 - t1)). intros M. unfold mid. destruct M. ring3.
    - transitivity (mtr (Rb t1) *v (pb t2 -v pb t1)).
      + rewrite <- R1, <- P1, <- P2, mtr_mul. pose proof (proj1 S1) as O. 
        transitivity (mtr Ae *v (mtr A1 *v (A2 *v t +v om_p m2 -v om_p m1) -v (mtr A1 *m A1) *v t)); [rewrite O; clear; unfold vneg, mid; generalize (mtr Ae) (mtr A1); intros; ring3|]. clear. generalize (mtr Ae) (mtr A1). intros. ring3.
      + rewrite M2. transitivity (mtr (Rb t1) *v (Rb t1 *v (int1 w (t2 - t1) *v v))); [f_equal; generalize (Rb t1 *v (int1 w (t2 - t1) *v v)) (pb t1); intros; ring3|]. apply SO3_l. exact SR. }
  rewrite EM, EU. rewrite !log4_twist by (try lia; lra). 
  eexists. exists vq. split; [reflexivity|]. split; [reflexivity|]. cbn [os_q].
  split.
  - rewrite upd_get by (apply nth_error_Some; congruence). do 3 f_equal. f_equal. destruct v as [a b c]. cbn [vget v0 v1 v2]. f_equal; field; lra.
  - intros id' N. rewrite upd_other by congruence. reflexivity.
Qed.
Lemma thm_odom_velocity l o id m1 o1 m2 t q w v Rb pb : os_run ROSSubscriber_odom l = Ok o -> last_added l = Some (t, q) -> SO3 (toRotationMatrix q) ->
  Odom2VelocityCallback o m1 id = Ok o1 -> let t1 := time_of (om_stamp m1) in let t2 := time_of (om_stamp m2) in
  constant_twist w v Rb pb -> odom_reports m1 (toRotationMatrix q) t (Rb t1) (pb t1) -> odom_reports m2 (toRotationMatrix q) t (Rb t2) (pb t2) ->
  t1 < t2 -> vnorm w * (t2 - t1) < PI ->
  exists o2 vq, Odom2VelocityCallback o1 m2 id = Ok o2 /\ nth_error (os_q o1) id = Some vq /\ nth_error (os_q o2) id = Some (vq ++ [mkVM t2 v]) /\
    forall id', id' <> id -> nth_error (os_q o2) id' = nth_error (os_q o1) id'.
Proof.
  intros HL HA SE HC t1 t2 HT O1 O2 HLT HB. destruct (os_run_inv l o HL) as [I1 I2]. rewrite HA in I2. cbn [option_map fst snd] in I2.
  destruct (callback_meta _ _ _ _ HC) as (L & E1 & E2 & E3). apply (odom_core o1 id m1 m2 t q w v Rb pb); auto; [rewrite E3, upd_len; lia|congruence|]. rewrite E3. apply upd_get. exact L.
Qed.
(** messages of other sources in between, and further sources with the same mounting *)
Lemma last_adds t q : forall l, Forall (adds t q) l -> last_added l <> None -> last_added l = Some (t, q).
Proof.
  induction l as [|x l IH] using rev_ind; [intros _ H; contradiction H; reflexivity|]. intros F N. rewrite last_added_snoc in *. apply Forall_app in F. destruct F as [F1 F2]. inversion F2; subst.
  destruct x as [t' q'|m i]; cbn in *; [destruct H1 as [-> ->]; reflexivity|auto].
Qed.
Lemma elsewhere_prev id x : forall l o o', Forall (elsewhere id) l -> os_run o l = Ok o' -> nth_error (os_prev o) id = Some x -> nth_error (os_prev o') id = Some x.
Proof.
  induction l as [|y l IH]; intros o o' F E H; [injection E as <-; exact H|]. unfold os_run in E. cbn [foldM] in E. apply bind_inv in E. destruct E as (o1 & E1 & E). inversion F; subst.
  apply (IH o1 o'); auto. destruct y as [t q|m i]; cbn [os_step] in E1.
  - injection E1 as <-. cbn. rewrite nth_error_app1; [exact H|]. apply nth_error_Some. congruence.
  - destruct (callback_meta _ _ _ _ E1) as (_ & _ & _ & ->). cbn in H2. rewrite upd_other by auto. exact H.
Qed.
Lemma thm_same_mounting t q l1 m1 l2 id o m2 w v Rb pb : Forall (adds t q) (l1 ++ OSMsg m1 id :: l2) -> Forall (elsewhere id) l2 -> SO3 (toRotationMatrix q) ->
  os_run ROSSubscriber_odom (l1 ++ OSMsg m1 id :: l2) = Ok o -> let t1 := time_of (om_stamp m1) in let t2 := time_of (om_stamp m2) in
  constant_twist w v Rb pb -> odom_reports m1 (toRotationMatrix q) t (Rb t1) (pb t1) -> odom_reports m2 (toRotationMatrix q) t (Rb t2) (pb t2) ->
  t1 < t2 -> vnorm w * (t2 - t1) < PI ->
  exists o2 vq, Odom2VelocityCallback o m2 id = Ok o2 /\ nth_error (os_q o) id = Some vq /\ nth_error (os_q o2) id = Some (vq ++ [mkVM t2 v]) /\
    forall id', id' <> id -> nth_error (os_q o2) id' = nth_error (os_q o) id'.
Proof.
  intros FA FE SE ER t1 t2 HT O1 O2 HLT HB. destruct (os_run_inv _ o ER) as [I1 I2].
  assert (nth_error (os_prev o) id = Some (Some (t1, transform (toRotationMatrix (om_q m1)) (om_p m1)))) as EP.
  { pose proof ER as E. unfold os_run in E. rewrite foldM_app in E. apply bind_inv in E. destruct E as (oa & _ & E). cbn [foldM os_step] in E. apply bind_inv in E. destruct E as (ob & Eb & E).
    apply (elsewhere_prev id _ l2 ob o FE E). destruct (callback_meta _ _ _ _ Eb) as (L & _ & _ & ->). apply upd_get. exact L. }
  assert (last_added (l1 ++ OSMsg m1 id :: l2) <> None) as NN.
  { intros C. assert (forall l o, last_added l = None -> os_run ROSSubscriber_odom l = Ok o -> os_prev o = []) as HH.
    { clear. induction l as [|x l IH] using rev_ind; intros o N E; [injection E as <-; reflexivity|]. rewrite last_added_snoc in N. destruct x as [t q|m i]; [discriminate|].
      unfold os_run in E. rewrite foldM_app in E. apply bind_inv in E. destruct E as (oa & Ea & E). cbn [foldM os_step] in E. apply bind_inv in E. destruct E as (ob & Eb & E). injection E as <-.
      destruct (callback_meta _ _ _ _ Eb) as (L & _ & _ & _). rewrite (IH oa N Ea) in L. cbn in L. lia. }
    rewrite (HH _ _ C ER) in EP. destruct id; discriminate. }
  rewrite (last_adds t q _ FA NN) in I2. cbn [option_map fst snd] in I2. apply (odom_core o id m1 m2 t q w v Rb pb); auto.
Qed.
