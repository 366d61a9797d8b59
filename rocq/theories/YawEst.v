(** Proofs: the whole estimator commutes with a rotation of the world that fixes gravity. *)
From Coq Require Import Reals ZArith List Bool Lia Lra.
From Verif Require Import Res Vec3 Mat LieGroup MatInv Psd Spec SpecState LieSO3 LieSEK LieThms RobotState StateProofs StateHist StateMisc Inekf SpecFilter
  InekfProofs InekfThms Imu Propagation SpecProp Blk PsdBlk PropagationProofs PropagationThms PropagationLog ImuThms ImuRest Queue VelCorr LegCorr SpecCorr ImuNeg VelThms LegThms LegAdd LegLoop LegUpd LegHist CorrInno
  Quat QuatThms Estimator SpecEst EstInv EstSafe EstPub EstHist EstTime ConvLeg ConvFilter SpecConv ConvEst SpecYaw YawFilter YawSteps.
Import ListNotations.
Local Open Scope R_scope.

(** ** from one convention to the other *)
Definition in_left (K : nat) (s : rstate) : rstate := set_P s (from_right K LeftInvariant (sX s) (sP s)).
Lemma in_left_wfp K s : wfp K s -> wfp K (in_left K s).
Proof. intros [[A B C D E] F G H I]. split; auto. split; auto. Qed.
Lemma in_left_right K s : wfp K s -> in_right (in_left K s) = s.
Proof.
  intros W. rewrite (in_right_K K) by apply (in_left_wfp K s W). unfold as_right, in_left. cbn [sX sP set_P from_right].
  rewrite L2R_AdB. destruct W as [[HX _ _ HP1 HP2] _ _ _ _]. rewrite (conj_cancel _ _ _ _ (AdB_inv K _ HX) HP1 HP2). destruct s; reflexivity.
Qed.
Lemma in_left_psd K s : wfp K s -> psd (sP s) -> psd (sP (in_left K s)).
Proof. intros W HP. cbn [sP in_left set_P from_right]. apply psd_conj; auto; mdim; destruct W as [[_ _ _ HP1 HP2] _ _ _ _]; lia. Qed.
Lemma turn_blocks_lead K R : turn_blocks R (9 + 3 * K) = AdB K (lead K R).
Proof.
  rewrite AdB_lead. apply mat_ext; [unfold turn_blocks, bdiag; rewrite nr_mk; unfold blk; rewrite nr_mk; lia|unfold turn_blocks, bdiag; rewrite nc_mk; unfold blk; rewrite nc_mk; lia|].
  intros i j Hi Hj. change (i < 9 + 3 * K)%nat in Hi. change (j < 9 + 3 * K)%nat in Hj. destruct (lin_ex i) as (b & a & -> & Ha). destruct (lin_ex j) as (b' & a' & -> & Ha').
  unfold bdiag. rewrite blk_entry by lia. unfold turn_blocks. rewrite ent_mk by lia. rewrite !div_lin, !mod_lin by auto. replace (9 + 3 * K - 6)%nat with (3 + 3 * K)%nat by lia.
  destruct (Nat.eqb_spec b b') as [->|Hne].
  - destruct (Nat.leb_spec b' K).
    + destruct (Nat.ltb_spec (3 * b' + a) (3 + 3 * K)); [|lia]. destruct (Nat.ltb_spec (3 * b' + a') (3 + 3 * K)); [|lia]. reflexivity.
    + destruct (Nat.ltb_spec (3 * b' + a) (3 + 3 * K)); [lia|]. cbn [andb]. rewrite mget_id by auto. destruct (Nat.eqb_spec (3 * b' + a) (3 * b' + a')), (Nat.eqb_spec a a'); try lia; reflexivity.
  - rewrite andb_false_r, mget_zero. destruct (Nat.eqb_spec (3 * b + a) (3 * b' + a')); [lia|reflexivity].
Qed.
Lemma in_right_turn K R s : SO3 R -> wfp K s -> in_right (turnL R s) = turned RightInvariant R (in_right s).
Proof.
  intros HR W. rewrite (in_right_K K) by (apply turnL_wfp; auto). rewrite (in_right_K K s) by apply W.
  unfold as_right, turnL, turned, turn_cov. cbn [sX sP set_P set_X]. destruct W as [[HX _ _ HP1 HP2] _ _ _ _].
  rewrite (turn_X_lead K R _ HX). rewrite !L2R_AdB, (AdB_mult K) by (auto using lead_SEK).
  change (nr (AdB K (sX s) *M sP s *M mT (AdB K (sX s)))) with (9 + 3 * K)%nat. rewrite turn_blocks_lead, mT_mult by mdim. rewrite !mmult_assoc. reflexivity.
Qed.
Lemma turned_wfp e K R s : SO3 R -> wfp K s -> wfp K (turned e R s).
Proof.
  intros HR W. destruct e; [apply (turnL_wfp K R s HR W)|]. pose proof (turnL_wfp K R s HR W) as [[A B C D E] F G H I]. split; auto. split; auto; cbn [turned sP set_P turn_cov]; destruct W as [[_ _ _ HP1 HP2] _ _ _ _]; rewrite HP1; reflexivity.
Qed.

(** ** corrections *)
Definition c_err (c : corr_obj) : error_type := match c with CVel c => vc_err c | CLeg c => lc_err c end.
Definition c_toleft (c : corr_obj) : corr_obj := match c with CVel c => CVel (vc_with c LeftInvariant) | CLeg c => CLeg (lc_with c LeftInvariant) end.
Lemma c_back cs : Forall (fun c => c_err c = RightInvariant) cs -> map c_right (map c_toleft cs) = cs.
Proof.
  induction 1 as [|c cs H _ IH]; [reflexivity|]. cbn [map]. rewrite IH. f_equal. destruct c as [[]|[]]; cbn in *; subst; reflexivity.
Qed.
Lemma core_left cs h s : core (leg_of cs) h s -> exists K, wfp K s /\ core (leg_of (map c_toleft cs)) h (in_left K s).
Proof.
  intros (ids & C & HP & HQ). exists (2 + length ids)%nat. pose proof (contacts_wfp _ _ _ _ C) as W. split; [exact W|]. exists ids. split; [|split; [apply in_left_psd; auto|exact HQ]].
  assert (leg_of (map c_toleft cs) = option_map (fun c => lc_with c LeftInvariant) (leg_of cs)) as ->.
  { clear. induction cs as [|[c|c] cs IH]; cbn; auto. }
  assert (contacts (option_map (fun c => lc_with c LeftInvariant) (leg_of cs)) h s ids) as C'.
  { destruct (leg_of cs) as [c|]; cbn in *; [apply tracks_with; exact C|exact C]. }
  eapply contacts_meta; [exact C'|apply in_left_wfp; exact W|reflexivity].
Qed.

Section Turn.
Variables (R : M3).
Hypothesis HR : SO3 R.
Lemma correct_all_turnL : forall cs ctx h s l tp t, (n_leg cs + n_ctx ctx <= 1)%nat -> Forall corr_noise cs -> Forall c_left cs ->
  core (pick ctx cs) h s -> stprop s = Some tp -> st s = Some t ->
  correct_all cs h (turnL R s) l = rmap (fun '(b, cs, h, s) => (b, cs, h, turnL R s)) (correct_all cs h s l).
Proof.
  induction cs as [|c cs IH]; intros ctx h s l tp t Hl HN HL HC Ht Hs; cbn [correct_all]; [reflexivity|].
  inversion HN as [|x y HNc HNs]; subst. inversion HL as [|x y HLc HLs]; subst. pose proof HC as (ids & C & HP & _). destruct c as [c|c]; cbn [corr_Correct].
  - rewrite (vel_Correct_turn R HR (2 + length ids) c s) by (auto; eapply contacts_wfp; eauto).
    destruct (vel_step _ h c s (a_vel (hd_arr l)) tp t HC HNc Ht Hs) as (b & c' & s1 & t1 & E & C1 & N1 & T1 & S1). rewrite E. cbn [bind rmap].
    rewrite (IH ctx h s1 (tl_arr l) tp t1); auto. destruct (correct_all cs h s1 (tl_arr l)) as [[[[b2 cs2] h2] s2]|]; reflexivity.
  - assert (ctx = None /\ n_leg cs = 0%nat) as [-> L0].
    { unfold n_leg in Hl. cbn in Hl. destruct ctx; cbn in Hl; [lia|]. split; [reflexivity|]. unfold n_leg. lia. }
    cbn [pick leg_of] in HC, C. rewrite (leg_Correct_turn R HR c h s ids) by auto.
    destruct (leg_step c h s (a_leg (hd_arr l)) tp t HC HNc Ht Hs) as (b & c' & h1 & s1 & t1 & E & C1 & N1 & T1 & S1). rewrite E. cbn [bind rmap].
    rewrite (IH (Some c') h1 s1 (tl_arr l) tp t1); auto; [|rewrite L0; cbn; lia].
    destruct (correct_all cs h1 s1 (tl_arr l)) as [[[[b2 cs2] h2] s2]|]; reflexivity.
Qed.
Lemma correct_all_turn er cs h s l tp t : (n_leg cs <= 1)%nat -> Forall corr_noise cs -> Forall (fun c => c_err c = er) cs ->
  core (leg_of cs) h s -> stprop s = Some tp -> st s = Some t ->
  correct_all cs h (turned er R s) l = rmap (fun '(b, cs, h, s) => (b, cs, h, turned er R s)) (correct_all cs h s l).
Proof.
  intros Hl HN HE HC Ht Hs. destruct er.
  - apply (correct_all_turnL cs None h s l tp t); auto; [cbn; lia|]. revert HE. apply Forall_impl. intros [c|c] H; exact H.
  - destruct (core_left cs h s HC) as (K & W & HC'). set (cs' := map c_toleft cs) in *. set (s' := in_left K s) in *.
    assert (n_leg cs' + n_ctx None <= 1)%nat as Hl'. { unfold cs', n_leg in *. cbn [n_ctx]. rewrite Nat.add_0_r. revert Hl. clear. intros H. erewrite <- (map_length c_toleft) in H. erewrite (f_equal (@length _)); [exact H|].
      clear. induction cs as [|[c|c] cs IH]; cbn; auto. f_equal. exact IH. }
    assert (Forall corr_noise cs') as HN'. { unfold cs'. apply Forall_map. revert HN. apply Forall_impl. intros [c|c] H; exact H. }
    assert (Forall c_left cs') as HL'. { unfold cs'. apply Forall_map. apply Forall_forall. intros [c|c] _; reflexivity. }
    rewrite <- (c_back cs HE). fold cs'. rewrite <- (in_left_right K s W). fold s'. pose proof (in_left_wfp K s W) as W'. fold s' in W'.
    rewrite <- (in_right_turn K R s' HR W').
    rewrite (correct_all_conv cs' None h s' l tp t) by (cbn [pick]; auto).
    destruct (correct_all_ok cs' None h s' l tp t Hl' HN' HC' Ht Hs) as (b & cs2 & h2 & s2 & t2 & E & A1 & A2 & A3 & A4 & A5).
    assert (core (pick None cs') h (turnL R s')) as HCt.
    { destruct HC' as (ids & C & HP & HQ). exists ids. split; [|auto]. eapply contacts_meta; [exact C|apply turnL_wfp; auto; eapply contacts_wfp; exact C|reflexivity]. }
    rewrite (correct_all_conv cs' None h (turnL R s') l tp t) by (cbn [pick]; auto).
    rewrite (correct_all_turnL cs' None h s' l tp t) by (cbn [pick]; auto). rewrite E. cbn [rmap].
    destruct A3 as (ids & C & _). rewrite (in_right_turn (2 + length ids) R s2 HR) by (eapply contacts_wfp; exact C). reflexivity.
Qed.

(** ** initialisation *)
Lemma put_vel_turn K s v v' t : wfp K s -> v' = R *v v -> put_vel (turnL R s) v' t = turnL R (put_vel s v t).
Proof.
  intros W ->. pose proof (turnL_wfp K R s HR W) as W'. rewrite !turnL_set_X. unfold put_vel, set_time. cbn [sX set_X stype sTheta sP scmap st stprop sQc sbav sen sslip].
  unfold set_X. cbn [sX stype sTheta sP scmap st stprop sQc sbav sen sslip]. f_equal.
  pose proof (put_vel_X K _ (R *v v) t W') as E1. pose proof (put_vel_X K s v t W) as E2. unfold put_vel in E1, E2. rewrite turnL_set_X in E1. cbn [sX set_time set_X] in E1, E2. rewrite E1, E2.
  assert (SEK K (sX s)) as HX by apply W. rewrite (turn_X_sek K _ (sek K _ _)) by (apply SEK_sek, HX). rewrite (turn_rot K) by auto. rewrite rot_aff. apply aff_ext. intros k Hk. rewrite col_aff by auto.
  destruct (Nat.eqb_spec k 0); [reflexivity|]. apply (turn_col K); auto.
Qed.
Lemma vel_initialize_turn K c s arr : wfp K s -> vel_initialize c (turnL R s) arr = rmap (fun '(b, c, s) => (b, c, turnL R s)) (vel_initialize c s arr) /\
  forall b c1 s1, vel_initialize c s arr = Ok (b, c1, s1) -> wfp K s1.
Proof.
  intros W. destruct (vc_queue c ++ arr) as [|x q] eqn:Eq.
  - unfold vel_initialize. rewrite Eq. split; [reflexivity|]. intros b c1 s1 [= <- <- <-]. exact W.
  - rewrite (vel_init_ok K c s arr x q W Eq), (vel_init_ok K c _ arr x q (turnL_wfp K R s HR W) Eq). cbn [rmap]. split.
    + do 2 f_equal. apply (put_vel_turn K); auto. change (sX (turnL R s)) with (turn_X R (sX s)). rewrite (turn_rot K) by apply W. symmetry; apply mv_mul || (destruct R, (rot (sX s)), (vm_v (last (x :: q) x)); ring3).
    + intros b c1 s1 [= <- <- <-]. apply put_vel_wfp; auto.
Qed.
Lemma leg_initialize_turn K c s arr : wfp K s -> leg_initialize c (turnL R s) arr = rmap (fun '(b, c, s) => (b, c, turnL R s)) (leg_initialize c s arr) /\
  forall b c1 s1, leg_initialize c s arr = Ok (b, c1, s1) -> wfp K s1.
Proof.
  intros W. destruct (lc_queue c ++ arr) as [|x q] eqn:Eq.
  - unfold leg_initialize. rewrite Eq. split; [reflexivity|]. intros b c1 s1 [= <- <- <-]. exact W.
  - destruct (sbav s) as [w|] eqn:Ew.
    + rewrite (leg_init_ok K c s arr x q w W Ew Eq), (leg_init_ok K c _ arr x q w (turnL_wfp K R s HR W) Ew Eq). cbn [rmap]. split.
      * do 2 f_equal. apply (put_vel_turn K); auto. change (sX (turnL R s)) with (turn_X R (sX s)). rewrite (turn_rot K) by apply W. destruct R, (rot (sX s)), (lm_initv (last (x :: q) x) w); ring3.
      * intros b c1 s1 [= <- <- <-]. apply put_vel_wfp; auto.
    + unfold leg_initialize. rewrite Eq. unfold get_body_angular_velocity. change (sbav (turnL R s)) with (sbav s). rewrite Ew. cbn. split; [reflexivity|discriminate].
Qed.
Lemma vel_spin_turn K : forall sched c s, wfp K s -> vel_spin c (turnL R s) sched = rmap (fun '(c, s) => (c, turnL R s)) (vel_spin c s sched) /\
  forall c1 s1, vel_spin c s sched = Ok (c1, s1) -> wfp K s1.
Proof.
  induction sched as [|b bs IH]; intros c s W; cbn [vel_spin];
  match goal with |- context [vel_initialize c s ?a] => destruct (vel_initialize_turn K c s a W) as [E1 E2]; rewrite E1; destruct (vel_initialize c s a) as [[[b0 c1] s1]|]; cbn [rmap bind]; [|split; [reflexivity|discriminate]]; specialize (E2 _ _ _ eq_refl) end.
  - destruct b0; [|split; [reflexivity|discriminate]]. split; [reflexivity|]. intros c2 s2 [= <- <-]. exact E2.
  - destruct b0; [split; [reflexivity|]; intros c2 s2 [= <- <-]; exact E2|]. apply IH. exact E2.
Qed.
Lemma leg_spin_turn K : forall sched c s, wfp K s -> leg_spin c (turnL R s) sched = rmap (fun '(c, s) => (c, turnL R s)) (leg_spin c s sched) /\
  forall c1 s1, leg_spin c s sched = Ok (c1, s1) -> wfp K s1.
Proof.
  induction sched as [|b bs IH]; intros c s W; cbn [leg_spin];
  match goal with |- context [leg_initialize c s ?a] => destruct (leg_initialize_turn K c s a W) as [E1 E2]; rewrite E1; destruct (leg_initialize c s a) as [[[b0 c1] s1]|]; cbn [rmap bind]; [|split; [reflexivity|discriminate]]; specialize (E2 _ _ _ eq_refl) end.
  - destruct b0; [|split; [reflexivity|discriminate]]. split; [reflexivity|]. intros c2 s2 [= <- <-]. exact E2.
  - destruct b0; [split; [reflexivity|]; intros c2 s2 [= <- <-]; exact E2|]. apply IH. exact E2.
Qed.
Lemma spin_all_turn K : forall cs s l, wfp K s -> spin_all cs (turnL R s) l = rmap (fun '(cs, s) => (cs, turnL R s)) (spin_all cs s l) /\
  forall c1 s1, spin_all cs s l = Ok (c1, s1) -> wfp K s1.
Proof.
  induction cs as [|c cs IH]; intros s l W; cbn [spin_all]; [split; [reflexivity|]; intros c1 s1 [= <- <-]; exact W|].
  assert (corr_spin c (turnL R s) (hd_arr l) = rmap (fun '(c, s) => (c, turnL R s)) (corr_spin c s (hd_arr l)) /\ forall c1 s1, corr_spin c s (hd_arr l) = Ok (c1, s1) -> wfp K s1) as [E1 E2].
  { destruct c as [c|c]; cbn [corr_spin].
    - destruct (vel_spin_turn K (a_vel (hd_arr l)) c s W) as [E1 E2]. rewrite E1. destruct (vel_spin c s _) as [[c1 s1]|]; cbn [rmap bind]; [|split; [reflexivity|discriminate]].
      split; [reflexivity|]. intros c2 s2 [= <- <-]. eapply E2; reflexivity.
    - destruct (leg_spin_turn K (a_leg (hd_arr l)) c s W) as [E1 E2]. rewrite E1. destruct (leg_spin c s _) as [[c1 s1]|]; cbn [rmap bind]; [|split; [reflexivity|discriminate]].
      split; [reflexivity|]. intros c2 s2 [= <- <-]. eapply E2; reflexivity. }
  rewrite E1. destruct (corr_spin c s (hd_arr l)) as [[c1 s1]|]; cbn [rmap bind]; [|split; [reflexivity|discriminate]].
  destruct (IH s1 (tl_arr l) (E2 _ _ eq_refl)) as [I1 I2]. rewrite I1. destruct (spin_all cs s1 (tl_arr l)) as [[cs2 s2]|]; cbn [rmap bind]; [|split; [reflexivity|discriminate]].
  split; [reflexivity|]. intros c3 s3 [= <- <-]. eapply I2; reflexivity.
Qed.
End Turn.
