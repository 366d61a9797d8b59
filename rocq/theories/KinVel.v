(** The initial velocity computed from a stance leg (C35), and the measurement seen by the leg correction. *)
From Coq Require Import Reals ZArith List Bool Arith Lia Lra FunctionalExtensionality.
From Verif Require Import Res Vec3 Mat Spec LieGroup LegCorr SpecFilter SpecProp PropagationExact LieSO3 KinGen Kinematics SpecKin KinEq KinEqB KinThms.
Import ListNotations.
Local Open Scope R_scope.

Lemma first_eq m w l : first_contact (k_contacts m) l -> get_init_velocity m w = stance_velocity m l w.
Proof.
  intros [H1 H2]. unfold get_init_velocity, all_legs.
  assert (forall l', (leg_id l' < leg_id l)%nat -> get_contact m (leg_id l') = Ok false) as F by (intros l' Hl; unfold get_contact; rewrite (H2 l' Hl); reflexivity).
  assert (get_contact m (leg_id l) = Ok true) as T by (unfold get_contact; rewrite H1; reflexivity).
  destruct l; cbn [first_stance]; repeat (rewrite F by (cbn; lia); cbn [bind]); rewrite T; reflexivity.
Qed.
Lemma thm_no_contact m w : k_contacts m = repeat false 4 -> get_init_velocity m w = Ok vzero.
Proof. intros H. unfold get_init_velocity, all_legs, first_stance, get_contact. rewrite H. reflexivity. Qed.
Lemma vderiv_uniq f t D E : vderiv f t D -> vderiv f t E -> D = E.
Proof.
  intros H1 H2. assert (forall i, (i < 3)%nat -> vget D i = vget E i) as Q by (intros i Hi; eapply uniqueness_limite; [apply H1|apply H2]; auto).
  pose proof (Q 0%nat ltac:(lia)). pose proof (Q 1%nat ltac:(lia)). pose proof (Q 2%nat ltac:(lia)). destruct D, E. cbn in *. congruence.
Qed.
Lemma foot_world l (Rb : R -> M3) pb q t dq w u : mderiv Rb t (Rb t *m crossm w) -> vderiv pb t (Rb t *v u) -> moves q t dq ->
  vderiv (fun s => pb s +v Rb s *v foot_pos (leg_geom l) (q s)) t (Rb t *v (u +v cross w (foot_pos (leg_geom l) (q t)) +v psum (leg_geom l) (q t) dq)).
Proof.
  intros HR Hp M. pose proof (vderiv_add _ _ t _ _ Hp (vderiv_mv2 _ _ t _ _ HR (pos_d l q t dq M))) as V. eapply vderiv_eq; [|exact V].
  cbv beta. generalize (foot_pos (leg_geom l) (q t)) (psum (leg_geom l) (q t) dq). intros a b. rewrite <- cross_skew. change (skew w) with (crossm w). generalize (crossm w) (Rb t). clear.
  intros W A.
  ring3.
Qed.
Lemma foot_pos_own l q q' : (forall k, (k < 12)%nat -> q k = q' k) -> foot_pos (leg_geom l) q = foot_pos (leg_geom l) q'.
Proof. intros H. unfold foot_pos. pose proof (joints l). rewrite !(H (g_joint (leg_geom l))), !(H (1 + g_joint (leg_geom l))%nat), !(H (2 + g_joint (leg_geom l))%nat) by lia. reflexivity. Qed.
Lemma q_ext q q' : (forall k, (k < 12)%nat -> q k = q' k) -> forall l dq, psum (leg_geom l) q dq = psum (leg_geom l) q' dq.
Proof. intros H l dq. unfold psum, pcol, d0, d1, d2, Rx, R1, R2. pose proof (joints l). rewrite !(H (g_joint (leg_geom l))), !(H (1 + g_joint (leg_geom l))%nat), !(H (2 + g_joint (leg_geom l))%nat) by lia. reflexivity. Qed.
Lemma thm_init_velocity m w l : length (k_enc m) = 12%nat -> length (k_denc m) = 12%nat -> first_contact (k_contacts m) l ->
  exists v, get_init_velocity m w = Ok v /\
  forall (Rb : R -> M3) (pb : R -> V3) (q : R -> nat -> R) t u,
    SO3 (Rb t) -> mderiv Rb t (Rb t *m crossm w) -> vderiv pb t (Rb t *v u) ->
    (forall k, (k < 12)%nat -> q t k = nth k (k_enc m) 0) -> moves q t (fun k => nth k (k_denc m) 0) ->
    (vderiv (fun s => pb s +v Rb s *v foot_pos (leg_geom l) (q s)) t vzero <-> u = v).
Proof.
  intros H1 H2 F. rewrite (first_eq _ _ _ F), (stance_eq _ _ _ H1 H2). eexists. split; [reflexivity|].
  intros Rb pb q t u S HR Hp Hq M. pose proof (foot_world l Rb pb q t _ w u HR Hp M) as V.
  rewrite (foot_pos_own l (q t) (q_list (k_enc m)) Hq) in V. rewrite (q_ext (q t) (q_list (k_enc m)) Hq) in V. fold (q_list (k_denc m)) in V. revert V.
  generalize (foot_pos (leg_geom l) (q_list (k_enc m))) (psum (leg_geom l) (q_list (k_enc m)) (q_list (k_denc m))). intros p s V. split.
  - intros Z. pose proof (vderiv_uniq _ _ _ _ V Z) as E. apply (f_equal (mv (mtr (Rb t)))) in E. rewrite SO3_l in E by exact S. rewrite mvz in E.
    destruct u, s, p, w. unfold vadd, cross, vneg, vsub, vzero in *. cbn in *. injection E. intros. f_equal; lra.
  - intros ->. eapply vderiv_eq; [|exact V]. replace (vneg s -v cross w p +v cross w p +v s) with vzero by ring3. apply mvz.
Qed.
(** the bounds: a default-constructed object has no joint velocities *)
Lemma thm_default_velocity w cs l : first_contact cs l -> get_init_velocity (set_contact MCK_default cs) w = Fail EigenAssert.
Proof.
  intros F. rewrite (first_eq (set_contact MCK_default cs) _ l F). unfold stance_velocity. cbn [set_contact k_enc k_denc MCK_default]. rewrite vec12_ok by reflexivity. cbn [bind]. rewrite p_eq, Jp_eq. reflexivity.
Qed.

(** ** the view of the leg correction *)
Lemma getM3_sub A i j : getM3 (sub A i j 3 3) 0 0 = getM3 A i j.
Proof. unfold getM3, mmk, sub. rewrite !ent_mk by lia. rewrite ?Nat.add_0_r. reflexivity. Qed.
Definition obs_of (m : mck) (l : leg) : leg_obs :=
  mkLO (nth (leg_id l) (k_contacts m) false) (foot_pos (leg_geom l) (q_list (k_enc m))) (own_jac l (q_list (k_enc m))).
Lemma own_jac_eq l q : getM3 (cols3 (leg_geom l) (pcol (leg_geom l) q)) 0 (3 * leg_id l) = own_jac l q.
Proof. unfold own_jac, getM3, mmk, cols3. rewrite !ent_mk by (destruct l; cbn; lia). destruct l; cbn [own leg_geom g_joint leg_id Nat.mul Nat.leb Nat.ltb andb Nat.add Nat.sub]; reflexivity. Qed.
Lemma thm_leg_view t m : kin_shaped m -> length (k_enc m) = 12%nat -> length (k_contacts m) = 4%nat ->
  exists lm, leg_view t m = Ok lm /\ lm_t lm = t /\ lm_legs lm = map (obs_of m) all_legs.
Proof.
  intros S H C. destruct (thm_compute m S H C) as (m' & E & S' & C' & E' & D' & G). unfold leg_view. rewrite E. cbn [bind].
  rewrite (foldM_ext _ (fun acc l => Ok (acc ++ [obs_of m l]))).
  - eexists. split; [reflexivity|]. split; reflexivity.
  - intros acc l. destruct (G l) as (G1 & J & G2 & G3). rewrite G1, G3. rewrite Jp_eq in G2. injection G2 as <-. unfold get_contact. rewrite C'.
    assert (nth_error (k_contacts m) (leg_id l) = Some (nth (leg_id l) (k_contacts m) false)) as -> by (apply nth_error_nth'; rewrite C; destruct l; cbn; lia).
    cbn [of_opt bind]. rewrite nr_sub, nc_sub. cbn [Nat.eqb andb bind]. rewrite getM3_sub, own_jac_eq. reflexivity.
Qed.
Lemma own_jac_mul l q dq : own_jac l q *v mkV (dq (g_joint (leg_geom l))) (dq (1 + g_joint (leg_geom l))%nat) (dq (2 + g_joint (leg_geom l))%nat) = psum (leg_geom l) q dq.
Proof. unfold psum. unfold own_jac, mmk. generalize (pcol (leg_geom l) q 0) (pcol (leg_geom l) q 1) (pcol (leg_geom l) q 2). intros [] [] []. ring3. Qed.
Lemma thm_leg_measurement t m : kin_shaped m -> length (k_enc m) = 12%nat -> length (k_contacts m) = 4%nat ->
  exists lm, leg_view t m = Ok lm /\ lm_t lm = t /\ length (lm_legs lm) = 4%nat /\
  (forall w v, get_init_velocity m w = Ok v -> lm_initv lm w = v) /\
  forall l, exists o, nth_error (lm_legs lm) (leg_id l) = Some o /\ nth_error (k_contacts m) (leg_id l) = Some (lo_contact o) /\
    lo_pos o = foot_pos (leg_geom l) (fun k => nth k (k_enc m) 0) /\
    forall q s dq, (forall k, (k < 12)%nat -> q s k = nth k (k_enc m) 0) -> moves q s dq ->
      vderiv (fun s => foot_pos (leg_geom l) (q s)) s (lo_J o *v mkV (dq (3 * leg_id l)%nat) (dq (3 * leg_id l + 1)%nat) (dq (3 * leg_id l + 2)%nat)).
Proof.
  intros S H C. destruct (thm_leg_view t m S H C) as (lm & E & T & L). exists lm. split; [exact E|]. split; [exact T|]. split; [rewrite L; reflexivity|]. split.
  - intros w v Hv. unfold leg_view in E. destruct (ComputeKinematics m); [|discriminate]. cbn [bind] in E. destruct (foldM _ _ _); [|discriminate]. cbn [bind] in E. injection E as <-. cbn [lm_initv]. rewrite Hv. reflexivity.
  - intros l. exists (obs_of m l). split; [rewrite L; destruct l; reflexivity|]. split; [cbn [obs_of lo_contact]; apply nth_error_nth'; rewrite C; destruct l; cbn; lia|]. split; [reflexivity|].
    intros q s dq Hq M. cbn [obs_of lo_J]. pose proof (pos_d l q s dq M) as V. eapply vderiv_eq; [|exact V]. rewrite (q_ext (q s) (q_list (k_enc m)) Hq). rewrite <- own_jac_mul. destruct l; reflexivity.
Qed.
(** shapes are kept by construction, setters and ComputeKinematics *)
Lemma thm_shapes : kin_shaped MCK_default /\ (forall e d c, kin_shaped (MCK_make e d c)) /\
  (forall m c, kin_shaped m -> kin_shaped (set_contact m c)) /\ (forall m e, kin_shaped m -> kin_shaped (set_joint_state m e)) /\ (forall m e, kin_shaped m -> kin_shaped (set_joint_state_velocity m e)).
Proof. repeat split; auto; apply H. Qed.
