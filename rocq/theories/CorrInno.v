(** Proofs: C55 stated about the two corrections themselves. *)
From Coq Require Import Reals ZArith List Bool Arith Lia Lra.
From Verif Require Import Res Vec3 Mat MatInv Psd Spec LieGroup LieSO3 LieSEK RobotState Inekf SpecFilter InekfThms Imu Propagation SpecProp
  Queue VelCorr LegCorr SpecCorr VelThms LegThms LegUpd LegHist.
Import ListNotations.
Local Open Scope R_scope.

Lemma thm_vel_correction K c m s xi E Xt : wfp K s -> nr xi = (3 + 3 * K)%nat -> nc xi = 1%nat ->
  Exp_SEK3 xi = Ok E -> Xt = E *M sX s -> vc_R c *v (vc_scale c *s vm_v m) = mtr (rot Xt) *v col Xt 0 ->
  exists Jr, RightJacobian_SO3 (getV3 xi 0 0) = Ok Jr /\
    vel_update c m s = CorrectRightInvariant (ofV3 (Jr *v getV3 xi 3 0)) (vel_H K) (vel_N s (vc_cov c)) (set_time s (vm_t m)) (vc_err c).
Proof.
  intros W H1 H2 HE HX HM. destruct (thm_vel_innovation K s xi E Xt W H1 H2 HE HX) as (Jr & EJ & EI). exists Jr. split; [exact EJ|].
  rewrite (vel_update_eq K) by exact W. rewrite HM, EI. reflexivity.
Qed.
(** the tracked feet of a measurement *)
Lemma feet_in c h : forall legs id f, In f (feet c h id legs) -> exists i o, nth_error legs i = Some o /\ lo_contact o = true /\ contact_of c h (id + i) = Some (ft_k f) /\ ft_pos f = lo_pos o.
Proof.
  induction legs as [|o legs IH]; intros id f H; cbn [feet] in H; [contradiction|]. apply in_app_or in H. destruct H as [H|H].
  - exists 0%nat, o. destruct (lo_contact o) eqn:E1; [|contradiction]. destruct (contact_of c h id) as [k|] eqn:E2; [|contradiction]. destruct H as [<-|[]].
    rewrite Nat.add_0_r. auto.
  - destruct (IH _ _ H) as (i & o' & A & B & C & D). exists (S i), o'. replace (id + S i)%nat with (S id + i)%nat by lia. auto.
Qed.
Lemma contact_lt c h s ids id k : tracks c h s ids -> contact_of c h id = Some k -> (k < length ids)%nat.
Proof.
  intros T H. unfold contact_of in H. destruct (lc_map c id) as [a|] eqn:E; [|discriminate]. pose proof (tr_in _ _ _ _ T _ _ E) as HI.
  destruct (In_nth_error _ _ HI) as [j Hj]. rewrite (tr_heap _ _ _ _ T _ _ Hj) in H. assert (k = j) by (injection H; lia). subst. pose proof (proj1 (nth_error_Some ids j) ltac:(congruence)). lia.
Qed.
Lemma thm_leg_correction c h m s ids xi E Xt : tracks c h s ids -> psd (sP s) -> leg_noise_ok c ->
  nr xi = (9 + 3 * length ids)%nat -> nc xi = 1%nat -> Exp_SEK3 xi = Ok E -> Xt = E *M sX s ->
  (forall id o k, nth_error (lm_legs m) id = Some o -> lo_contact o = true -> contact_of c h id = Some k ->
     lo_pos o = mtr (rot Xt) *v (col Xt (2 + k) -v col Xt 1)) ->
  exists Jr s1 c' h' s', RightJacobian_SO3 (getV3 xi 0 0) = Ok Jr /\ leg_update c h m s = Ok (c', h', s') /\ leg_booked c h m s1 c' h' s' /\
    let o := feet c h 0 (lm_legs m) in
    let Z := mk (3 * length o) 1 (fun i _ => vget (Jr *v (getV3 xi (9 + 3 * ft_k (nth (i / 3) o no_foot)) 0 -v getV3 xi 6 0)) (i mod 3)) in
    (o = [] -> s1 = set_time s (lm_t m)) /\
    (o <> [] -> CorrectRightInvariant Z (leg_H (2 + length ids) o) (leg_N (sX s) o) (set_time s (lm_t m)) (lc_err c) = Ok s1).
Proof.
  intros T HP HN H1 H2 HE HX HM. destruct (thm_leg_update c h m s ids T HP HN) as (s1 & c' & h' & s' & ids' & A1 & A2 & A3 & _).
  destruct (jr_of (getV3 xi 0 0)) as (Jr & EJ & _). exists Jr, s1, c', h', s'. split; [exact EJ|]. split; [exact A1|]. split; [exact A3|]. cbv zeta.
  red in A2. cbv zeta in A2. remember (feet c h 0 (lm_legs m)) as o eqn:Eo. split.
  - intros ->. cbn in A2. congruence.
  - intros No. destruct o as [|f o']; [congruence|]. set (o := f :: o') in *. change (Nat.eqb (length o) 0) with false in A2. cbv iota in A2. rewrite <- A2. f_equal.
    unfold leg_Z. apply mat_ext; try reflexivity. intros i j Hi Hj. rewrite nr_mk in Hi. rewrite nc_mk in Hj. rewrite !ent_mk by assumption. f_equal. symmetry.
    assert (In (nth (i / 3) o no_foot) o) as HI by (apply nth_In; apply Nat.div_lt_upper_bound; lia).
    rewrite Eo in HI at 2. destruct (feet_in _ _ _ _ _ HI) as (id & ob & B1 & B2 & B3 & B4). cbn [Nat.add] in B3.
    destruct (thm_leg_innovation (2 + length ids) s xi E Xt (nth (i / 3) o no_foot) (tr_wf _ _ _ _ T)) as (Jr' & EJ' & EI); auto.
    + rewrite H1. lia.
    + pose proof (contact_lt _ _ _ _ _ _ T B3). lia.
    + rewrite B4. apply (HM id ob); assumption.
    + rewrite EJ in EJ'. injection EJ' as <-. exact EI.
Qed.
