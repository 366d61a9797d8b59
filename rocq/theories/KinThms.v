(** Velocities of the leg chain; the generated Jacobians; ComputeKinematics; the initial velocity. *)
From Coq Require Import Reals ZArith List Bool Arith Lia Lra FunctionalExtensionality.
From Verif Require Import Res Vec3 Mat Spec LieGroup LegCorr SpecFilter SpecProp PropagationExact LieSO3 KinGen Kinematics SpecKin KinEq KinEqB.
Import ListNotations.
Local Open Scope R_scope.

Lemma sin_d f t d : derivable_pt_lim f t d -> derivable_pt_lim (fun s => sin (f s)) t (d * cos (f t)).
Proof. intros H. rewrite Rmult_comm. apply (derivable_pt_lim_comp f sin); [exact H|apply derivable_pt_lim_sin]. Qed.
Lemma cos_d f t d : derivable_pt_lim f t d -> derivable_pt_lim (fun s => cos (f s)) t (- (d * sin (f t))).
Proof. intros H. replace (- (d * sin (f t))) with (- sin (f t) * d) by ring. apply (derivable_pt_lim_comp f cos); [exact H|apply derivable_pt_lim_cos]. Qed.
Lemma dl_eq f t d d' : d = d' -> derivable_pt_lim f t d -> derivable_pt_lim f t d'. Proof. intros ->; auto. Qed.
Lemma dl_fun f g t d : (forall s, f s = g s) -> derivable_pt_lim f t d -> derivable_pt_lim g t d.
Proof. intros H. replace g with f; [auto|]. apply functional_extensionality. exact H. Qed.
Lemma rotx_d f t d : derivable_pt_lim f t d -> mderiv (fun s => rotx (f s)) t (d *ms (skew ex *m rotx (f t))).
Proof.
  intros H i j Hi Hj. pose proof (sin_d f t d H) as S. pose proof (cos_d f t d H) as C. pose proof (derivable_pt_lim_opp (fun s => sin (f s)) t _ S) as N.
  destruct i as [|[|[|i]]]; try lia; destruct j as [|[|[|j]]]; try lia; cbn [mget rotx m00 m01 m02 m10 m11 m12 m20 m21 m22];
  first [eapply dl_eq; [|exact S] | eapply dl_eq; [|exact C] | eapply dl_eq; [|exact N] | eapply dl_eq; [|apply derivable_pt_lim_const]]; cbn; ring.
Qed.
Lemma roty_d f t d : derivable_pt_lim f t d -> mderiv (fun s => roty (- f s)) t (d *ms (skew (vneg ey) *m roty (- f t))).
Proof.
  intros H0. pose proof (derivable_pt_lim_opp f t d H0) as H. change (- f)%F with (fun s => - f s) in H.
  intros i j Hi Hj. pose proof (sin_d _ t _ H) as S. pose proof (cos_d _ t _ H) as C. pose proof (derivable_pt_lim_opp (fun s => sin (- f s)) t _ S) as N.
  destruct i as [|[|[|i]]]; try lia; destruct j as [|[|[|j]]]; try lia; cbn [mget roty m00 m01 m02 m10 m11 m12 m20 m21 m22];
  first [eapply dl_eq; [|exact S] | eapply dl_eq; [|exact C] | eapply dl_eq; [|exact N] | eapply dl_eq; [|apply derivable_pt_lim_const]]; cbn; ring.
Qed.
Lemma vderiv_mv2 f u t D E : mderiv f t D -> vderiv u t E -> vderiv (fun s => f s *v u s) t (D *v u t +v f t *v E).
Proof.
  intros H1 H2 i Hi.
  assert (forall k, (k < 3)%nat -> derivable_pt_lim (fun s => mget (f s) i k * vget (u s) k) t (mget D i k * vget (u t) k + mget (f t) i k * vget E k)) as P.
  { intros k Hk. apply (derivable_pt_lim_mult (fun s => mget (f s) i k) (fun s => vget (u s) k)); auto. }
  pose proof (derivable_pt_lim_plus _ _ _ _ _ (derivable_pt_lim_plus _ _ _ _ _ (P 0%nat ltac:(lia)) (P 1%nat ltac:(lia))) (P 2%nat ltac:(lia))) as Q.
  eapply dl_fun; [|eapply dl_eq; [|exact Q]].
  - intros s. unfold plus_fct. rewrite vget_mv by lia. reflexivity.
  - rewrite vget_add, !vget_mv by lia. ring.
Qed.
Lemma vderiv_eq f t D E : D = E -> vderiv f t D -> vderiv f t E. Proof. intros ->; auto. Qed.
Lemma cross_skew u v : skew u *v v = cross u v. Proof. destruct u, v. cbn. unfold skew, mv, cross. cbn. f_equal; ring. Qed.

(** ** the chain *)
Lemma skm a e A u : (a *ms (skew e *m A)) *v u = a *s cross e (A *v u). Proof. unfold skew. ring3. Qed.
Lemma mvz A : A *v vzero = vzero. Proof. ring3. Qed.
Lemma vz_l u : vzero +v u = u. Proof. ring3. Qed.
Lemma vz_r u : u +v vzero = u. Proof. ring3. Qed.
Lemma cross_neg u v : cross (vneg u) v = vneg (cross u v). Proof. ring3. Qed.
Lemma mv_lin2 A u v : A *v (u +v v) = A *v u +v A *v v. Proof. ring3. Qed.
Lemma mv_s A a u : A *v (a *s u) = a *s (A *v u). Proof. ring3. Qed.
Definition wsum (g : geom) (q : nat -> R) (dq : nat -> R) : V3 := dq (g_joint g) *s wcol g q 0 +v dq (1 + g_joint g)%nat *s wcol g q 1 +v dq (2 + g_joint g)%nat *s wcol g q 2.
Definition psum (g : geom) (q : nat -> R) (dq : nat -> R) : V3 := dq (g_joint g) *s pcol g q 0 +v dq (1 + g_joint g)%nat *s pcol g q 1 +v dq (2 + g_joint g)%nat *s pcol g q 2.
Lemma rotx_skew a u : rotx a *m skew u = skew (rotx a *v u) *m rotx a.
Proof. pose proof (sin2 a) as E. destruct u. unfold rotx, skew, mmul, mv. cbn. f_equal; ring [E]. Qed.
Lemma roty_skew a : roty a *m skew (vneg ey) = skew (vneg ey) *m roty a.
Proof. unfold roty, skew, mmul, ey, vneg. cbn. f_equal; ring. Qed.
Lemma skew_lin a b c u v w : skew (a *s u +v b *s v +v c *s w) = a *ms skew u +m b *ms skew v +m c *ms skew w.
Proof. destruct u, v, w. unfold skew, vadd, vscal, madd, mscal. cbn. f_equal; ring. Qed.
Lemma mvneg A u : A *v vneg u = vneg (A *v u). Proof. ring3. Qed.
Lemma mmul_add_l' A B C : (A +m B) *m C = A *m C +m B *m C. Proof. ring3. Qed.
Lemma mscal_l a A B : (a *ms A) *m B = a *ms (A *m B). Proof. ring3. Qed.
Lemma mscal_r a A B : A *m (a *ms B) = a *ms (A *m B). Proof. ring3. Qed.
Lemma mmul_as A B C : A *m (B *m C) = A *m B *m C. Proof. ring3. Qed.
Lemma joints l : (2 + g_joint (leg_geom l) < 12)%nat. Proof. destruct l; cbn; lia. Qed.
Section chain.
  Context (l : leg) (q : R -> nat -> R) (t : R) (dq : nat -> R) (M : moves q t dq).
  Let g := leg_geom l.
  Lemma Dx : mderiv (fun s => Rx g (q s)) t (dq (g_joint g) *ms (skew ex *m Rx g (q t))).
  Proof. apply rotx_d. apply M. pose proof (joints l). fold g in H. lia. Qed.
  Lemma D1 : mderiv (fun s => R1 g (q s)) t (dq (1 + g_joint g)%nat *ms (skew (vneg ey) *m R1 g (q t))).
  Proof. apply (roty_d (fun s => q s (1 + g_joint g)%nat)). apply M. pose proof (joints l). fold g in H. lia. Qed.
  Lemma D2 : mderiv (fun s => R2 g (q s)) t (dq (2 + g_joint g)%nat *ms (skew (vneg ey) *m R2 g (q t))).
  Proof. apply (roty_d (fun s => q s (2 + g_joint g)%nat)). apply M. pose proof (joints l). fold g in H. lia. Qed.
  Lemma pos_d : vderiv (fun s => foot_pos g (q s)) t (psum g (q t) dq).
  Proof.
    pose proof (vderiv_mv2 _ _ t _ _ D2 (vderiv_const (d2 g) t)) as V2.
    pose proof (vderiv_add _ _ t _ _ (vderiv_const (mkV 0 0 (- g_thigh g)) t) V2) as V1'.
    pose proof (vderiv_mv2 _ _ t _ _ D1 V1') as V1.
    pose proof (vderiv_add _ _ t _ _ (vderiv_const (mkV 0 (g_off g) 0) t) V1) as V0'.
    pose proof (vderiv_mv2 _ _ t _ _ Dx V0') as V0.
    pose proof (vderiv_add _ _ t _ _ (vderiv_const (g_hip g) t) V0) as V.
    eapply vderiv_eq; [|exact V]. unfold psum, pcol. change (mkV 0 0 (- g_thigh g) +v R2 g (q t) *v d2 g) with (d1 g (q t)). change (mkV 0 (g_off g) 0 +v R1 g (q t) *v d1 g (q t)) with (d0 g (q t)).
    rewrite !skm. rewrite !mvz, !vz_l, !vz_r, !cross_neg, !mv_lin2, !mv_s. generalize (Rx g (q t) *v (R1 g (q t) *v vneg (cross ey (R2 g (q t) *v d2 g)))) (Rx g (q t) *v vneg (cross ey (R1 g (q t) *v d1 g (q t)))) (cross ex (Rx g (q t) *v d0 g (q t))).
    intros u0 u1 u2. ring3.
  Qed.
  Lemma rot_d : mderiv (fun s => foot_rot g (q s)) t (crossm (wsum g (q t) dq) *m foot_rot g (q t)).
  Proof.
    pose proof (mderiv_mul _ _ t _ _ (mderiv_mul _ _ t _ _ Dx D1) D2) as V. eapply mderiv_eq; [|exact V]. unfold wsum, wcol, foot_rot. fold (Rx g (q t)) (R1 g (q t)) (R2 g (q t)).
    match goal with |- context [crossm ?x] => change (crossm x) with (skew x) end. rewrite skew_lin.
    set (A := Rx g (q t)). set (B := R1 g (q t)). set (C := R2 g (q t)).
    assert (skew (vneg (A *v ey)) *m A = A *m skew (vneg ey)) as EA by (unfold A, Rx; rewrite <- mvneg; symmetry; apply rotx_skew).
    assert (B *m skew (vneg ey) = skew (vneg ey) *m B) as EB by (unfold B, R1; apply roty_skew).
    rewrite !mmul_add_l', !mscal_l, !mscal_r. rewrite <- !mmul_as. rewrite !(mmul_as (skew (vneg (A *v ey))) A), EA. rewrite <- !mmul_as.
    rewrite (mmul_as B (skew (vneg ey)) C), EB. repeat (rewrite !mmul_add_l' || rewrite !mscal_l || rewrite !mscal_r || rewrite <- !mmul_as). reflexivity.
  Qed.
End chain.
Lemma rotx_SO3 a : SO3 (rotx a).
Proof. pose proof (sin2 a) as E. unfold SO3, rotx, mtr, mmul, det3, mid. cbn [m00 m01 m02 m10 m11 m12 m20 m21 m22]. split; [f_equal|]; ring [E]. Qed.
Lemma roty_SO3 a : SO3 (roty a).
Proof. pose proof (sin2 a) as E. unfold SO3, roty, mtr, mmul, det3, mid. cbn [m00 m01 m02 m10 m11 m12 m20 m21 m22]. split; [f_equal|]; ring [E]. Qed.
Lemma foot_rot_SO3 g q : SO3 (foot_rot g q).
Proof. unfold foot_rot. apply SO3_mul; [apply SO3_mul|]; [apply rotx_SO3|apply roty_SO3|apply roty_SO3]. Qed.

(** ** the 12 columns *)
Lemma cols3_mul l (c : nat -> V3) dq : cols3 (leg_geom l) c *M col12 dq =
  ofV3 (dq (g_joint (leg_geom l)) *s c 0%nat +v dq (1 + g_joint (leg_geom l))%nat *s c 1%nat +v dq (2 + g_joint (leg_geom l))%nat *s c 2%nat).
Proof.
  apply mat_ext; [reflexivity|reflexivity|]. intros i j Hi Hj. change (i < 3)%nat in Hi. change (j < 1)%nat in Hj. assert (j = 0)%nat as -> by lia.
  rewrite ent_mult. change (nc (cols3 (leg_geom l) c)) with 12%nat. rewrite ent_ofV3 by lia. rewrite !vget_add, !vget_scal.
  rewrite (sum_ext 12 _ (fun k => (if own (leg_geom l) k then vget (c (k - g_joint (leg_geom l))%nat) i else 0) * dq k)).
  - destruct l; cbn [sum own leg_geom g_joint Nat.leb Nat.ltb andb Nat.add Nat.sub]; ring.
  - intros k Hk. unfold cols3, col12. rewrite !ent_mk by lia. reflexivity.
Qed.
Lemma cols6_mul l (a b : nat -> V3) dq : cols6 (leg_geom l) a b *M col12 dq =
  mk 6 1 (fun i _ => if Nat.ltb i 3 then ent (cols3 (leg_geom l) a *M col12 dq) i 0 else ent (cols3 (leg_geom l) b *M col12 dq) (i - 3) 0).
Proof.
  apply mat_ext; [reflexivity|reflexivity|]. intros i j Hi Hj. change (i < 6)%nat in Hi. change (j < 1)%nat in Hj. assert (j = 0)%nat as -> by lia.
  rewrite ent_mk by lia. rewrite !ent_mult. change (nc (cols6 (leg_geom l) a b)) with 12%nat. change (nc (cols3 (leg_geom l) a)) with 12%nat. change (nc (cols3 (leg_geom l) b)) with 12%nat.
  destruct (Nat.ltb_spec i 3); apply sum_ext; intros k Hk; unfold cols6, cols3, col12; rewrite !ent_mk by lia; destruct (own _ _); auto; destruct (Nat.ltb_spec i 3); auto; lia.
Qed.
Lemma entd_ofV3 f t D : vderiv f t D -> entd (fun s => ofV3 (f s)) t (ofV3 D).
Proof.
  intros H. split; [reflexivity|]. split; [reflexivity|]. intros i j Hi Hj. change (i < 3)%nat in Hi. change (j < 1)%nat in Hj. assert (j = 0)%nat as -> by lia. rewrite ent_ofV3 by lia.
  eapply dl_fun; [|apply H; lia]. intros s. cbn beta. rewrite ent_ofV3 by lia. reflexivity.
Qed.

Lemma thm_jacobian l : exists P J : (nat -> R) -> mat,
  (forall q, p_Body_to l q = Ok (P q) /\ Jp_Body_to l q = Ok (J q) /\ nr (P q) = 3%nat /\ nc (P q) = 1%nat /\ nr (J q) = 3%nat /\ nc (J q) = 12%nat) /\
  (forall q t dq, moves q t dq -> entd (fun s => P (q s)) t (J (q t) *M col12 dq)) /\
  (forall q i j, (i < 3)%nat -> (j < 12)%nat -> (j < 3 * leg_id l \/ 3 * leg_id l + 3 <= j)%nat -> ent (J q) i j = 0).
Proof.
  exists (fun q => ofV3 (foot_pos (leg_geom l) q)), (fun q => cols3 (leg_geom l) (pcol (leg_geom l) q)). split; [|split].
  - intros q. split; [apply p_eq|]. split; [apply Jp_eq|]. repeat split.
  - intros q t dq M. rewrite cols3_mul. apply entd_ofV3. apply (pos_d l q t dq M).
  - intros q i j Hi Hj Ho. unfold cols3. rewrite ent_mk by lia. assert (own (leg_geom l) j = false) as ->; [|reflexivity].
    unfold own. destruct (Nat.leb_spec (g_joint (leg_geom l)) j); [|reflexivity]. destruct (Nat.ltb_spec j (g_joint (leg_geom l) + 3)); [|reflexivity]. destruct l; cbn in *; lia.
Qed.
(** single joints *)
Definition upd (q : nat -> R) (j : nat) (x : R) (k : nat) : R := if Nat.eqb k j then x else q k.
Lemma upd_same q j : upd q j (q j) = q.
Proof. apply functional_extensionality. intros k. unfold upd. destruct (Nat.eqb_spec k j); congruence. Qed.
Lemma upd_moves q j : moves (upd q j) (q j) (fun k => if Nat.eqb k j then 1 else 0).
Proof.
  intros k Hk. unfold upd. destruct (Nat.eqb_spec k j).
  - apply (derivable_pt_lim_id (q j)).
  - apply derivable_pt_lim_const.
Qed.
Lemma thm_partial l : exists P J : (nat -> R) -> mat, (forall q, p_Body_to l q = Ok (P q) /\ Jp_Body_to l q = Ok (J q)) /\
  forall q i j, (i < 3)%nat -> (j < 12)%nat -> derivable_pt_lim (fun x => ent (P (fun k => if Nat.eqb k j then x else q k)) i 0) (q j) (ent (J q) i j).
Proof.
  destruct (thm_jacobian l) as (P & J & E & D & _). exists P, J. split; [intros q; destruct (E q) as (A & B & _); auto|].
  intros q i j Hi Hj. destruct (E q) as (_ & _ & E1 & E2 & E3 & E4). destruct (D (upd q j) (q j) _ (upd_moves q j)) as (_ & _ & H). rewrite upd_same in H.
  specialize (H i 0%nat). rewrite ent_mult, E4 in H. eapply dl_eq; [|apply H; [rewrite nr_mult, E3; exact Hi|change (0 < 1)%nat; lia]].
  rewrite (sum_ext 12 _ (fun k => ent (J q) i k * (if Nat.eqb k j then 1 else 0))) by (intros k Hk; unfold col12; rewrite ent_mk by lia; reflexivity).
  clear - Hj. destruct j as [|[|[|[|[|[|[|[|[|[|[|[|j]]]]]]]]]]]]; try lia; cbn [sum Nat.eqb]; ring.
Qed.
Lemma thm_chain l q : p_Body_to l q = Ok (ofV3 (foot_pos (leg_geom l) q)) /\ R_Body_to l q = Ok (ofM3 (foot_rot (leg_geom l) q)).
Proof. split; [apply p_eq|apply R_eq]. Qed.
(** ** transforms and twists *)
Lemma mkH_d A p t DA Dp : mderiv A t DA -> vderiv p t Dp ->
  forall i j, (i < 4)%nat -> (j < 4)%nat -> derivable_pt_lim (fun s => ent (mkH (A s) (p s)) i j) t (if Nat.ltb i 3 then (if Nat.ltb j 3 then mget DA i j else vget Dp i) else 0).
Proof.
  intros HA Hp i j Hi Hj. apply (dl_fun (fun s => if Nat.ltb i 3 then (if Nat.ltb j 3 then mget (A s) i j else vget (p s) i) else if Nat.eqb j 3 then 1 else 0)); [intros s; unfold mkH; rewrite ent_mk by lia; reflexivity|]. destruct (Nat.ltb_spec i 3); [|apply derivable_pt_lim_const].
  destruct (Nat.ltb_spec j 3); [apply HA; lia|apply Hp; lia].
Qed.
Lemma sum4 f : sum 4 f = f 0%nat + f 1%nat + f 2%nat + f 3%nat. Proof. cbn. ring. Qed.
Lemma twist_mkH x A p i j : (i < 4)%nat -> (j < 4)%nat -> ent (twist4 x *M mkH A p) i j =
  if Nat.ltb i 3 then (if Nat.ltb j 3 then mget (crossm (getV3 x 0 0) *m A) i j else vget (cross (getV3 x 0 0) p +v getV3 x 3 0) i) else 0.
Proof.
  intros Hi Hj. rewrite ent_mult. change (nc (twist4 x)) with 4%nat. rewrite sum4. unfold twist4, mkH. rewrite !ent_mk by lia. generalize (getV3 x 0 0). intros u. unfold getV3, vmk. destruct u, A, p.
  destruct i as [|[|[|[|i]]]]; try lia; destruct j as [|[|[|[|j]]]]; try lia; cbn; ring.
Qed.
Lemma mkH_twist x A p i j : (i < 4)%nat -> (j < 4)%nat -> ent (mkH A p *M twist4 x) i j =
  if Nat.ltb i 3 then (if Nat.ltb j 3 then mget (A *m crossm (getV3 x 0 0)) i j else vget (A *v getV3 x 3 0) i) else 0.
Proof.
  intros Hi Hj. rewrite ent_mult. change (nc (mkH A p)) with 4%nat. rewrite sum4. unfold twist4, mkH. rewrite !ent_mk by lia. generalize (getV3 x 0 0). intros u. unfold getV3, vmk. destruct u, A.
  destruct i as [|[|[|[|i]]]]; try lia; destruct j as [|[|[|[|j]]]]; try lia; cbn; ring.
Qed.
Lemma get_top l a b dq : getV3 (cols6 (leg_geom l) a b *M col12 dq) 0 0 =
  dq (g_joint (leg_geom l)) *s a 0%nat +v dq (1 + g_joint (leg_geom l))%nat *s a 1%nat +v dq (2 + g_joint (leg_geom l))%nat *s a 2%nat.
Proof. rewrite cols6_mul, !cols3_mul. set (u := _ +v _). unfold getV3, vmk. rewrite !ent_mk by lia. cbn [Nat.add Nat.ltb Nat.leb]. rewrite !ent_ofV3 by lia. destruct u; reflexivity. Qed.
Lemma get_bot l a b dq : getV3 (cols6 (leg_geom l) a b *M col12 dq) 3 0 =
  dq (g_joint (leg_geom l)) *s b 0%nat +v dq (1 + g_joint (leg_geom l))%nat *s b 1%nat +v dq (2 + g_joint (leg_geom l))%nat *s b 2%nat.
Proof. rewrite cols6_mul, !cols3_mul. set (u := _ +v _ +v _). set (v := _ +v _). unfold getV3, vmk. rewrite !ent_mk by lia. cbn [Nat.add Nat.ltb Nat.leb Nat.sub]. rewrite !ent_ofV3 by lia. destruct v; reflexivity. Qed.
Lemma vs_sum g q dq : dq (g_joint g) *s vscol g q 0 +v dq (1 + g_joint g)%nat *s vscol g q 1 +v dq (2 + g_joint g)%nat *s vscol g q 2 = psum g q dq -v cross (wsum g q dq) (foot_pos g q).
Proof. unfold vscol, psum, wsum. generalize (pcol g q 0) (pcol g q 1) (pcol g q 2) (wcol g q 0) (wcol g q 1) (wcol g q 2) (foot_pos g q) (dq (g_joint g)) (dq (1 + g_joint g)%nat) (dq (2 + g_joint g)%nat). intros. ring3. Qed.
Lemma rt_sum A a b c u v w : a *s (mtr A *v u) +v b *s (mtr A *v v) +v c *s (mtr A *v w) = mtr A *v (a *s u +v b *s v +v c *s w).
Proof. ring3. Qed.
Lemma thm_twists l : exists H A P Js Jb : (nat -> R) -> mat,
  (forall q, H_Body_to l q = Ok (H q) /\ R_Body_to l q = Ok (A q) /\ p_Body_to l q = Ok (P q) /\ Js_Body_to l q = Ok (Js q) /\ Jb_Body_to l q = Ok (Jb q) /\
    nr (H q) = 4%nat /\ nc (H q) = 4%nat /\ nr (Js q) = 6%nat /\ nc (Js q) = 12%nat /\ nr (Jb q) = 6%nat /\ nc (Jb q) = 12%nat) /\
  (forall q, SO3 (getM3 (A q) 0 0) /\ sub (H q) 0 0 3 3 = A q /\ sub (H q) 0 3 3 1 = P q /\ (forall j, (j < 4)%nat -> ent (H q) 3 j = if Nat.eqb j 3 then 1 else 0)) /\
  (forall q t dq, moves q t dq -> entd (fun s => H (q s)) t (twist4 (Js (q t) *M col12 dq) *M H (q t)) /\ entd (fun s => H (q s)) t (H (q t) *M twist4 (Jb (q t) *M col12 dq))) /\
  (forall q, Jws_Body_to l q = Ok (sub (Js q) 0 0 3 12) /\ Jvs_Body_to l q = Ok (sub (Js q) 3 0 3 12) /\ Jwb_Body_to l q = Ok (sub (Jb q) 0 0 3 12) /\ Jvb_Body_to l q = Ok (sub (Jb q) 3 0 3 12)).
Proof.
  set (g := leg_geom l). exists (fun q => mkH (foot_rot g q) (foot_pos g q)), (fun q => ofM3 (foot_rot g q)), (fun q => ofV3 (foot_pos g q)), (fun q => cols6 g (wcol g q) (vscol g q)), (fun q => cols6 g (wbcol g q) (vbcol g q)).
  split; [|split; [|split]].
  - intros q. split; [apply H_eq|]. split; [apply R_eq|]. split; [apply p_eq|]. split; [apply Js_eq|]. split; [apply Jb_eq|]. repeat split.
  - intros q. split; [|split; [|split]].
    + replace (getM3 (ofM3 (foot_rot g q)) 0 0) with (foot_rot g q); [apply foot_rot_SO3|]. unfold getM3, mmk. rewrite !ent_ofM3 by lia. destruct (foot_rot g q). reflexivity.
    + apply mat_ext; [reflexivity|reflexivity|]. intros i j Hi Hj. change (i < 3)%nat in Hi. change (j < 3)%nat in Hj. unfold sub, mkH. rewrite !ent_mk, ent_ofM3 by lia. cbn [Nat.add].
      destruct (Nat.ltb_spec i 3); [|lia]. destruct (Nat.ltb_spec j 3); [reflexivity|lia].
    + apply mat_ext; [reflexivity|reflexivity|]. intros i j Hi Hj. change (i < 3)%nat in Hi. change (j < 1)%nat in Hj. assert (j = 0)%nat as -> by lia. unfold sub, mkH. rewrite !ent_mk, ent_ofV3 by lia. cbn [Nat.add].
      destruct (Nat.ltb_spec i 3); [reflexivity|lia].
    + intros j Hj. unfold mkH. rewrite ent_mk by lia. reflexivity.
  - intros q t dq M. pose proof (rot_d l q t dq M) as HR. pose proof (pos_d l q t dq M) as HP. fold g in HR, HP. pose proof (mkH_d _ _ _ _ _ HR HP) as D. split; (split; [reflexivity|]; split; [reflexivity|]); intros i j Hi Hj; change (i < 4)%nat in Hi; change (j < 4)%nat in Hj; (eapply dl_eq; [|apply D; auto]).
    + rewrite twist_mkH by auto. unfold g. rewrite get_top, get_bot. fold g. rewrite vs_sum. fold (wsum g (q t) dq). destruct (Nat.ltb i 3); [|reflexivity]. destruct (Nat.ltb j 3); [reflexivity|]. f_equal. generalize (psum g (q t) dq) (cross (wsum g (q t) dq) (foot_pos g (q t))). intros. ring3.
    + rewrite mkH_twist by auto. unfold g. rewrite get_top, get_bot. fold g. unfold wbcol, vbcol. rewrite !rt_sum. fold (wsum g (q t) dq) (psum g (q t) dq).
      pose proof (foot_rot_SO3 g (q t)) as S. rewrite SO3_rv by exact S.
      assert (foot_rot g (q t) *m crossm (mtr (foot_rot g (q t)) *v wsum g (q t) dq) = crossm (wsum g (q t) dq) *m foot_rot g (q t)) as ->; [|reflexivity].
      change crossm with skew. rewrite (SO3_skew (mtr (foot_rot g (q t)))) by (apply SO3_tr; exact S). rewrite !mmul_as. rewrite (SO3_r _ S). generalize (foot_rot g (q t)) (skew (wsum g (q t) dq)). intros X Y. ring3.
  - intros q. rewrite Jws_eq, Jvs_eq, Jwb_eq, Jvb_eq. fold g. repeat split; f_equal; (apply mat_ext; [reflexivity|reflexivity|]); intros i j Hi Hj; change (i < 3)%nat in Hi; change (j < 12)%nat in Hj;
      unfold sub, cols3, cols6; rewrite !ent_mk by lia; cbn [Nat.add]; destruct (own g j); auto; destruct i as [|[|[|i]]]; try lia; reflexivity.
Qed.

(** ** ComputeKinematics *)
Definition q_list (l : list R) (k : nat) : R := nth k l 0.
Definition own_jac (l : leg) (q : nat -> R) : M3 := mmk (fun i k => vget (pcol (leg_geom l) q k) i).
Definition by_leg {A} (f : leg -> A) (j : nat) : A := match j with O => f FR | 1%nat => f FL | 2%nat => f HR | _ => f HL end.
Lemma put_legs P c : nr P = 3%nat -> nc P = 4%nat ->
  foldM (fun P l => let* p := Ok (ofV3 (c l)) in cput P 0 (leg_id l) p) P all_legs = Ok (mk 3 4 (fun i j => vget (by_leg c j) i)).
Proof.
  intros H1 H2. cbn [foldM all_legs bind leg_id].
  assert (forall l, nr (ofV3 (c l)) = 3%nat) as N1 by reflexivity. assert (forall l, nc (ofV3 (c l)) = 1%nat) as N2 by reflexivity.
  rewrite cput_ok by (rewrite ?nr_put, ?nc_put, ?H1, ?H2, ?N1, ?N2; lia). cbn [bind]. rewrite cput_ok by (rewrite ?nr_put, ?nc_put, ?H1, ?H2, ?N1, ?N2; lia). cbn [bind].
  rewrite cput_ok by (rewrite ?nr_put, ?nc_put, ?H1, ?H2, ?N1, ?N2; lia). cbn [bind]. rewrite cput_ok by (rewrite ?nr_put, ?nc_put, ?H1, ?H2, ?N1, ?N2; lia). cbn [bind].
  f_equal. apply mat_ext; [exact H1|exact H2|]. intros i j Hi Hj. rewrite !nr_put, H1 in Hi. rewrite !nc_put, H2 in Hj. rewrite (ent_mk 3 4) by lia.
  rewrite !ent_put by (rewrite ?nr_put, ?nc_put, ?H1, ?H2, ?N1, ?N2; lia). rewrite !N1, !N2.
  destruct i as [|[|[|i]]]; try lia; destruct j as [|[|[|[|j]]]]; try lia; cbn [Nat.leb Nat.ltb Nat.add Nat.sub andb by_leg]; rewrite ent_ofV3 by lia; reflexivity.
Qed.
Lemma put_jacs J (B : leg -> mat) : nr J = 3%nat -> nc J = 12%nat -> (forall l, nr (B l) = 3%nat /\ nc (B l) = 12%nat) ->
  foldM (fun J l => let* j := Ok (B l) in let* b := cblock j 0 (leg_id l * 3) 3 3 in cput J 0 (leg_id l * 3) b) J all_legs = Ok (mk 3 12 (fun i j => ent (by_leg B (j / 3)) i j)).
Proof.
  intros H1 H2 HB. assert (forall l, cblock (B l) 0 (leg_id l * 3) 3 3 = Ok (sub (B l) 0 (leg_id l * 3) 3 3)) as HC.
  { intros l. unfold cblock. destruct (HB l) as (-> & ->). destruct l; reflexivity. }
  cbn [foldM all_legs bind]. rewrite !HC. cbn [bind leg_id].
  rewrite cput_ok by (rewrite ?nr_put, ?nc_put, ?nr_sub, ?nc_sub, ?H1, ?H2; lia). cbn [bind leg_id]. rewrite cput_ok by (rewrite ?nr_put, ?nc_put, ?nr_sub, ?nc_sub, ?H1, ?H2; lia). cbn [bind leg_id].
  rewrite cput_ok by (rewrite ?nr_put, ?nc_put, ?nr_sub, ?nc_sub, ?H1, ?H2; lia). cbn [bind leg_id]. rewrite cput_ok by (rewrite ?nr_put, ?nc_put, ?nr_sub, ?nc_sub, ?H1, ?H2; lia). cbn [bind].
  f_equal. apply mat_ext; [exact H1|exact H2|]. intros i j Hi Hj. rewrite !nr_put, H1 in Hi. rewrite !nc_put, H2 in Hj. rewrite (ent_mk 3 12) by lia.
  rewrite !ent_put by (rewrite ?nr_put, ?nc_put, ?nr_sub, ?nc_sub, ?H1, ?H2; lia). rewrite !nr_sub, !nc_sub. unfold sub.
  assert (inwin 0 3 i = true) as -> by (destruct i as [|[|[|i]]]; [reflexivity|reflexivity|reflexivity|lia]). rewrite Nat.sub_0_r. cbn [andb].
  destruct j as [|[|[|[|[|[|[|[|[|[|[|[|j]]]]]]]]]]]]; try lia; cbn [inwin Nat.leb Nat.ltb Nat.add Nat.sub Nat.mul andb]; rewrite ent_mk by lia; reflexivity.
Qed.
Lemma vec12_ok l : length l = 12%nat -> vec12 l = Ok (q_list l).
Proof. intros H. unfold vec12. rewrite H. reflexivity. Qed.
Lemma foldM_ext {A B} (f g : A -> B -> res A) l : (forall a b, f a b = g a b) -> forall a, foldM f a l = foldM g a l.
Proof. intros H. induction l; intros x; cbn; auto. rewrite H. destruct (g x a); cbn; auto. Qed.
Lemma compute_eq m : kin_shaped m -> length (k_enc m) = 12%nat -> let q := q_list (k_enc m) in
  ComputeKinematics m = Ok (mkMCK (mk 3 4 (fun i j => vget (by_leg (fun l => foot_pos (leg_geom l) q) j) i))
    (mk 3 12 (fun i j => ent (by_leg (fun l => cols3 (leg_geom l) (pcol (leg_geom l) q)) (j / 3)) i j)) (k_contacts m) (k_enc m) (k_denc m)).
Proof.
  intros [P1 P2 J1 J2] H q. unfold ComputeKinematics. rewrite vec12_ok by exact H. cbn [bind]. fold q.
  rewrite (foldM_ext _ (fun P l => let* p := Ok (ofV3 (foot_pos (leg_geom l) q)) in cput P 0 (leg_id l) p)) by (intros; rewrite p_eq; reflexivity).
  rewrite put_legs by auto. cbn [bind].
  rewrite (foldM_ext _ (fun J l => let* j := Ok (cols3 (leg_geom l) (pcol (leg_geom l) q)) in let* b := cblock j 0 (leg_id l * 3) 3 3 in cput J 0 (leg_id l * 3) b)) by (intros; rewrite Jp_eq; reflexivity).
  rewrite put_jacs by (auto; intros; split; reflexivity). reflexivity.
Qed.
Lemma thm_compute m : kin_shaped m -> length (k_enc m) = 12%nat -> length (k_contacts m) = 4%nat ->
  exists m', ComputeKinematics m = Ok m' /\ kin_shaped m' /\ k_contacts m' = k_contacts m /\ k_enc m' = k_enc m /\ k_denc m' = k_denc m /\
  forall l, get_kin_pos m' (leg_id l) = Ok (foot_pos (leg_geom l) (q_list (k_enc m))) /\
    exists J, Jp_Body_to l (q_list (k_enc m)) = Ok J /\ get_J m' (leg_id l) = Ok (sub J 0 (3 * leg_id l) 3 3).
Proof.
  intros S H C. pose proof (compute_eq m S H) as E. cbv zeta in E. eexists. split; [exact E|]. split; [constructor; reflexivity|]. do 3 (split; [reflexivity|]).
  intros l. set (q := q_list (k_enc m)). split.
  - unfold get_kin_pos. cbn [k_pos]. rewrite cgetV3_ok by (rewrite ?nr_mk, ?nc_mk; destruct l; cbn [leg_id]; lia). f_equal. unfold getV3, vmk. rewrite !ent_mk by (destruct l; cbn; lia). destruct l; cbn [by_leg leg_id Nat.add vget]; destruct (foot_pos _ _); reflexivity.
  - eexists. split; [apply Jp_eq|]. unfold get_J. cbn [k_contacts k_enc k_jac]. rewrite C, H. cbv beta iota zeta. change (Nat.div 12 4) with 3%nat.
    unfold cblock. rewrite nr_mk, nc_mk. replace ((0 + 3 <=? 3)%nat && (leg_id l * 3 + 3 <=? 12)%nat)%bool with true by (destruct l; reflexivity). f_equal.
    apply mat_ext; [reflexivity|reflexivity|]. intros i j Hi Hj. change (i < 3)%nat in Hi. change (j < 3)%nat in Hj. unfold sub. rewrite (ent_mk 3 3), (ent_mk 3 12), (ent_mk 3 3) by (destruct l; cbn; lia).
    replace ((leg_id l * 3 + j) / 3)%nat with (leg_id l). 2:{ destruct j as [|[|[|j]]]; try lia; destruct l; reflexivity. }
    rewrite (Nat.mul_comm 3). destruct l; reflexivity.
Qed.
(** one leg only: the foot velocity from the three-by-three block *)
Lemma thm_own_block l q : exists J, Jp_Body_to l q = Ok J /\ forall dq, J *M col12 dq = sub J 0 (3 * leg_id l) 3 3 *M mk 3 1 (fun i _ => dq (3 * leg_id l + i)%nat).
Proof.
  eexists. split; [apply Jp_eq|]. intros dq. rewrite cols3_mul. apply mat_ext; [reflexivity|reflexivity|]. intros i j Hi Hj. change (i < 3)%nat in Hi. change (j < 1)%nat in Hj. assert (j = 0)%nat as -> by lia.
  rewrite ent_ofV3 by lia. rewrite ent_mult. change (nc (sub _ _ _ 3 3)) with 3%nat. rewrite !vget_add, !vget_scal. cbn [sum]. unfold sub, cols3. rewrite !ent_mk by (destruct l; cbn; lia).
  destruct l; cbn [own leg_geom g_joint leg_id Nat.mul Nat.leb Nat.ltb andb Nat.add Nat.sub]; ring.
Qed.

(** ** the initial velocity *)
Lemma mopp_mult A B : mopp A *M B = mopp (A *M B).
Proof. apply mat_ext; [reflexivity|reflexivity|]. intros i j Hi Hj. rewrite ent_opp, !ent_mult. change (nc (mopp A)) with (nc A). generalize (nc A). intros n. induction n; cbn [sum]; [ring|]. rewrite IHn, ent_opp. ring. Qed.
Lemma stance_eq m l w : length (k_enc m) = 12%nat -> length (k_denc m) = 12%nat ->
  stance_velocity m l w = Ok (vneg (psum (leg_geom l) (q_list (k_enc m)) (q_list (k_denc m))) -v cross w (foot_pos (leg_geom l) (q_list (k_enc m)))).
Proof.
  intros H1 H2. unfold stance_velocity. rewrite vec12_ok by exact H1. cbn [bind]. rewrite p_eq, Jp_eq. cbn [bind]. rewrite H2. rewrite cmul_ok by reflexivity. cbn [bind].
  change (mk 12 1 (fun i _ => nth i (k_denc m) 0)) with (col12 (q_list (k_denc m))).
  rewrite mopp_mult, cols3_mul. set (q := q_list (k_enc m)). set (dq := q_list (k_denc m)). fold (psum (leg_geom l) q dq). generalize (psum (leg_geom l) q dq) (foot_pos (leg_geom l) q). intros u p.
  rewrite cgetV3_ok by (unfold mopp, ofV3; rewrite ?nr_mk, ?nc_mk; lia). cbn [bind]. rewrite cgetV3_ok by (unfold ofV3; rewrite ?nr_mk, ?nc_mk; lia). cbn [bind]. f_equal. rewrite cross_skew.
  replace (getV3 (mopp (ofV3 u)) 0 0) with (vneg u). 2:{ destruct u. reflexivity. }
  replace (getV3 (ofV3 p) 0 0) with p. 2:{ destruct p. reflexivity. } reflexivity.
Qed.
