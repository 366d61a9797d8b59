(** Proofs: C57, the whole estimator in the two error conventions. *)
From Coq Require Import Reals ZArith List Bool Arith Lia Lra.
From Verif Require Import Res Vec3 Mat MatInv Psd Spec LieGroup LieSO3 LieSEK RobotState StateProofs Inekf SpecFilter InekfThms Blk Imu Propagation SpecProp
  PropagationThms PropagationLog ImuRest ImuThms ImuNeg Queue VelCorr LegCorr SpecCorr VelThms PsdBlk LegThms LegUpd LegHist Estimator SpecEst EstInv EstSafe EstPub EstHist EstTime
  ConvLeg ConvFilter SpecConv.
Import ListNotations.
Local Open Scope R_scope.

(** ** the change of coordinates at a start state is the identity *)
Lemma L2R_start (X : mat) : col X 0 = vzero -> col X 1 = vzero ->
  L2R 2 X = blk 5 (fun i j => if Nat.eqb i j then (if (i <? 3)%nat then rot X else mid) else mzero).
Proof.
  intros H0 H1. apply blk_eq; [reflexivity|reflexivity|]. intros i j Hi Hj. apply M3_ext. intros a b Ha Hb. rewrite mget_getM3 by auto.
  destruct (Nat.ltb_spec i 3) as [Hi3|Hi3].
  - destruct (Nat.ltb_spec j 3) as [Hj3|Hj3].
    + rewrite L2R_blk by lia. destruct (Nat.eqb_spec i j); [reflexivity|]. destruct (Nat.eqb_spec j 0); [|reflexivity].
      assert (col X (i - 1) = vzero) as -> by (destruct i as [|[|[|i]]]; [lia|exact H0|exact H1|lia]).
      replace (crossm vzero *m rot X) with mzero; [reflexivity|]. unfold crossm. ring3.
    + rewrite L2R_bias by lia. destruct (Nat.eqb_spec (3 * i + a) (3 * j + b)); [lia|]. destruct (Nat.eqb_spec i j); [lia|].
      destruct a as [|[|[|a]]]; try lia; destruct b as [|[|[|b]]]; try lia; reflexivity.
  - rewrite L2R_bias by lia. destruct (Nat.eqb_spec i j) as [->|N].
    + rewrite mget_id by auto. destruct (Nat.eqb_spec (3 * j + a) (3 * j + b)), (Nat.eqb_spec a b); try lia; reflexivity.
    + destruct (Nat.eqb_spec (3 * i + a) (3 * j + b)); [lia|]. destruct a as [|[|[|a]]]; try lia; destruct b as [|[|[|b]]]; try lia; reflexivity.
Qed.
Lemma blk_T n f : mT (blk n f) = blk n (fun i j => mtr (f j i)).
Proof.
  apply blk_eq; [reflexivity|reflexivity|]. intros i j Hi Hj. apply M3_ext. intros a b Ha Hb. rewrite mget_getM3 by auto.
  rewrite ent_T by (mdim; lia). unfold blk. rewrite ent_mk by lia. rewrite !div_lin, !mod_lin by auto.
  destruct a as [|[|[|a]]]; try lia; destruct b as [|[|[|b]]]; try lia; destruct (f j i); reflexivity.
Qed.
Lemma bdiag_mult n f g : bdiag n f *M bdiag n g = bdiag n (fun i => f i *m g i).
Proof.
  unfold bdiag. rewrite blk_mult. apply blk_ext. intros i j Hi Hj. apply M3_ext. intros a b Ha Hb.
  rewrite (msum_ext n _ (fun k => if Nat.eqb k i then (if Nat.eqb i j then f i *m g i else mzero) else mzero)).
  2:{ intros k Hk. destruct (Nat.eqb_spec i k) as [<-|N].
      - rewrite Nat.eqb_refl. destruct (Nat.eqb i j); [reflexivity|]. destruct (f i); unfold mzero; ring3.
      - destruct (Nat.eqb_spec k i); [lia|]. destruct (if Nat.eqb k j then g k else mzero); unfold mzero; ring3. }
  f_equal. generalize (if Nat.eqb i j then f i *m g i else mzero). clear -Hi. intros M.
  assert (forall n, msum n (fun k => if Nat.eqb k i then M else mzero) = if (i <? n)%nat then M else mzero) as ->.
  { clear. induction n as [|n IH]; [reflexivity|]. cbn [msum]. rewrite IH. destruct (Nat.eqb_spec n i), (Nat.ltb_spec i n), (Nat.ltb_spec i (S n)); try lia; destruct M; unfold mzero; ring3. }
  destruct (Nat.ltb_spec i n); [reflexivity|lia].
Qed.
Lemma bdiag_ext n f g : (forall i, (i < n)%nat -> f i = g i) -> bdiag n f = bdiag n g.
Proof. intros H. apply blk_ext. intros i j Hi Hj. destruct (Nat.eqb i j); auto. Qed.
Lemma bdiag_T n f : mT (bdiag n f) = bdiag n (fun i => mtr (f i)).
Proof.
  unfold bdiag. rewrite blk_T. apply blk_ext. intros i j Hi Hj. rewrite Nat.eqb_sym. destruct (Nat.eqb_spec i j) as [->|]; [reflexivity|]. unfold mzero. ring3.
Qed.
Lemma scl_conj x R : SO3 R -> R *m (x *ms mid) *m mtr R = x *ms mid.
Proof.
  intros H. pose proof (SO3_r _ H) as E. transitivity (x *ms (R *m mtr R)); [destruct R; ring3|]. rewrite E. reflexivity.
Qed.
Lemma in_right_start s r v p bg ba : SEK 2 (sX s) -> col (sX s) 0 = vzero -> col (sX s) 1 = vzero -> sP s = bdiag 5 (init_blocks r v p bg ba) -> in_right s = s.
Proof.
  intros HX H0 H1 HP. unfold in_right, dimX. rewrite (sek_cols _ _ HX). change (3 + 2 - 3)%nat with 2%nat. unfold as_right. apply set_P_eta.
  rewrite (L2R_start _ H0 H1), HP.
  change (blk 5 (fun i j => if Nat.eqb i j then (if (i <? 3)%nat then rot (sX s) else mid) else mzero)) with (bdiag 5 (fun i => if (i <? 3)%nat then rot (sX s) else mid)).
  rewrite bdiag_T, !bdiag_mult. apply bdiag_ext. intros i Hi.
  pose proof (sek_rot _ _ HX) as HR. destruct i as [|[|[|[|i]]]]; cbn [init_blocks Nat.ltb Nat.leb]; try (apply scl_conj; exact HR); [destruct bg|destruct ba]; ring3.
Qed.
Lemma in_right_blank s : blank s -> in_right s = s.
Proof.
  intros B. destruct eye_rot_col as [E1 E2]. apply (in_right_start s 1 1 1 mid mid); rewrite ?(bl_X _ B).
  - apply (blank_wfp _) in B as W. pose proof (bl_X _ B) as E. rewrite <- E. apply W.
  - apply E2; lia. - apply E2; lia.
  - rewrite (bl_P _ B). change 15%nat with (3 * 5)%nat. rewrite blk_eye. unfold bdiag. apply blk_ext. intros i j Hi Hj.
    destruct (Nat.eqb i j); [|reflexivity]. destruct i as [|[|[|[|i]]]]; cbn [init_blocks]; ring3.
Qed.

(** ** corrections *)
Definition c_right (c : corr_obj) : corr_obj := match c with CVel c => CVel (vc_with c RightInvariant) | CLeg c => CLeg (lc_with c RightInvariant) end.
Definition c_left (c : corr_obj) : Prop := match c with CVel c => vc_err c = LeftInvariant | CLeg c => lc_err c = LeftInvariant end.
Lemma vel_spin_conv : forall sched c s, vel_spin (vc_with c RightInvariant) s sched = rmap (fun '(c, s) => (vc_with c RightInvariant, s)) (vel_spin c s sched).
Proof.
  assert (forall c s a, vel_initialize (vc_with c RightInvariant) s a = rmap (fun '(b, c, s) => (b, vc_with c RightInvariant, s)) (vel_initialize c s a)) as HI.
  { intros c s a. unfold vel_initialize. cbn [vc_queue vc_with]. destruct (vc_queue c ++ a); [reflexivity|]. destruct (get_rotation s); [|reflexivity]. cbn [bind].
    destruct (set_velocity s _); reflexivity. }
  induction sched as [|x xs IH]; intros c s; cbn [vel_spin]; rewrite HI; destruct (vel_initialize c s _) as [[[b c1] s1]|]; cbn [rmap bind]; try reflexivity; destruct b; try reflexivity.
  apply IH.
Qed.
Lemma leg_spin_conv : forall sched c s, leg_spin (lc_with c RightInvariant) s sched = rmap (fun '(c, s) => (lc_with c RightInvariant, s)) (leg_spin c s sched).
Proof.
  assert (forall c s a, leg_initialize (lc_with c RightInvariant) s a = rmap (fun '(b, c, s) => (b, lc_with c RightInvariant, s)) (leg_initialize c s a)) as HI.
  { intros c s a. unfold leg_initialize. cbn [lc_queue lc_with]. destruct (lc_queue c ++ a); [reflexivity|]. destruct (get_body_angular_velocity s); [|reflexivity]. cbn [bind].
    destruct (get_rotation s); [|reflexivity]. cbn [bind]. destruct (set_velocity s _); reflexivity. }
  induction sched as [|x xs IH]; intros c s; cbn [leg_spin]; rewrite HI; destruct (leg_initialize c s _) as [[[b c1] s1]|]; cbn [rmap bind]; try reflexivity; destruct b; try reflexivity.
  apply IH.
Qed.
Lemma spin_all_conv : forall cs s l, spin_all (map c_right cs) s l = rmap (fun '(cs, s) => (map c_right cs, s)) (spin_all cs s l).
Proof.
  induction cs as [|c cs IH]; intros s l; [reflexivity|]. cbn [map spin_all].
  assert (corr_spin (c_right c) s (hd_arr l) = rmap (fun '(c, s) => (c_right c, s)) (corr_spin c s (hd_arr l))) as ->.
  { destruct c as [c|c]; cbn [c_right corr_spin].
    - rewrite vel_spin_conv. destruct (vel_spin c s _) as [[c1 s1]|]; reflexivity.
    - rewrite leg_spin_conv. destruct (leg_spin c s _) as [[c1 s1]|]; reflexivity. }
  destruct (corr_spin c s (hd_arr l)) as [[c1 s1]|]; cbn [rmap bind]; [|reflexivity]. rewrite IH. destruct (spin_all cs s1 (tl_arr l)) as [[cs2 s2]|]; reflexivity.
Qed.
Lemma deliver_conv : forall cs l, deliver_all (map c_right cs) l = map c_right (deliver_all cs l).
Proof. induction cs as [|[c|c] cs IH]; intros l; cbn [map deliver_all]; [reflexivity| |]; rewrite IH; reflexivity. Qed.
Lemma upd_conv v l : forall i cs, upd_nth (map c_right cs) i (fun c => push_corr c v l) = map c_right (upd_nth cs i (fun c => push_corr c v l)).
Proof. induction i as [|i IH]; intros [|[c|c] cs]; cbn [map upd_nth]; try reflexivity; rewrite IH; reflexivity. Qed.
Lemma correct_all_conv : forall cs ctx h s l tp t, (n_leg cs + n_ctx ctx <= 1)%nat -> Forall corr_noise cs -> Forall c_left cs ->
  core (pick ctx cs) h s -> stprop s = Some tp -> st s = Some t ->
  correct_all (map c_right cs) h (in_right s) l = rmap (fun '(b, cs, h, s) => (b, map c_right cs, h, in_right s)) (correct_all cs h s l).
Proof.
  induction cs as [|c cs IH]; intros ctx h s l tp t Hl HN HL HC Ht Hs; cbn [correct_all map]; [reflexivity|].
  inversion HN as [|x y HNc HNs]; subst. inversion HL as [|x y HLc HLs]; subst. pose proof HC as (ids & C & HP & _). destruct c as [c|c]; cbn [corr_Correct c_right].
  - rewrite (vel_Correct_conv (2 + length ids) c s) by (auto; eapply contacts_wfp; eauto).
    destruct (vel_step _ h c s (a_vel (hd_arr l)) tp t HC HNc Ht Hs) as (b & c' & s1 & t1 & E & C1 & N1 & T1 & S1). rewrite E. cbn [bind rmap].
    rewrite (IH ctx h s1 (tl_arr l) tp t1); auto. destruct (correct_all cs h s1 (tl_arr l)) as [[[[b2 cs2] h2] s2]|]; reflexivity.
  - assert (ctx = None /\ n_leg cs = 0%nat) as [-> L0].
    { unfold n_leg in Hl. cbn in Hl. destruct ctx; cbn in Hl; [lia|]. split; [reflexivity|]. unfold n_leg. lia. }
    cbn [pick leg_of] in HC, C. rewrite (leg_Correct_conv c h s ids) by auto.
    destruct (leg_step c h s (a_leg (hd_arr l)) tp t HC HNc Ht Hs) as (b & c' & h1 & s1 & t1 & E & C1 & N1 & T1 & S1). rewrite E. cbn [bind rmap].
    rewrite (IH (Some c') h1 s1 (tl_arr l) tp t1); auto; [|rewrite L0; cbn; lia].
    destruct (correct_all cs h1 s1 (tl_arr l)) as [[[[b2 cs2] h2] s2]|]; reflexivity.
Qed.

(** ** the estimator *)
Definition conv_est (e : est) : est :=
  mkEst RightInvariant (in_right (e_state e)) (e_heap e) (option_map (fun ip => set_err ip RightInvariant) (e_prop e)) (map c_right (e_corrs e)) (e_enabled e)
    (map in_right (e_out e)) (e_logger e) (map in_right (e_logq e)) (option_map in_right (e_pending e)) (e_lastpub e) (e_rate e) (e_lines e) (e_names e)
    (e_count e) (e_files e) (e_opened e) (e_rot_cov e) (e_vel_cov e) (e_pos_cov e) (e_slip e).
Definition lefty (e : est) : Prop := (forall ip, e_prop e = Some ip -> ip_err ip = LeftInvariant) /\ Forall c_left (e_corrs e).
Lemma lefty_step e o e' : lefty e -> est_step e o = Ok e' -> lefty e'.
Proof.
  intros [H1 H2] E. destruct (step_fixed _ _ _ E) as (_ & F1 & F2). split.
  - intros ip Hip. rewrite Hip in F2. destruct (e_prop e) as [ip0|]; [|discriminate]. cbn [option_map] in F2.
    assert (ip_fixed ip = ip_fixed ip0) as F by congruence. rewrite <- (H1 ip0 eq_refl). change (ip_err ip) with (fst (fst (fst (fst (fst (fst (fst (fst (ip_fixed ip))))))))).
    rewrite F. reflexivity.
  - revert F1. generalize (e_corrs e'). intros cs'. revert H2. generalize (e_corrs e). intros cs. revert cs'.
    induction cs as [|c cs IH]; intros [|c' cs'] H2 F1; try discriminate; constructor; cbn [map] in F1; inversion H2; subst.
    + assert (c_fixed c' = c_fixed c) as F by congruence. destruct c, c'; cbn in *; try discriminate; congruence.
    + apply IH; auto. congruence.
Qed.

Lemma step_conv fut e o : est_ok (op_imu o ++ fut) e -> allowed e o -> lefty e ->
  (forall e', est_step e o = Ok e' -> is_init_op o = true -> col (sX (e_state e')) 0 = vzero) ->
  est_step (conv_est e) o = rmap conv_est (est_step e o).
Proof.
  intros HE HA [HL1 HL2] HV. pose proof HE as [(ip & Hip & HN & HCal & HS & HRun) Hno Hle Hsl Hcov Hon Hoff Hpub].
  destruct o; cbn [op_imu app] in *.
  - cbn [est_step]. cbn [e_prop conv_est]. rewrite Hip. reflexivity.
  - cbn [est_step rmap]. f_equal. unfold conv_est, e_set_corrs, e_set. cbn. rewrite upd_conv. reflexivity.
  - cbn [est_step rmap]. f_equal. unfold conv_est, e_set_corrs, e_set. cbn. rewrite upd_conv. reflexivity.
  - cbn [est_step]. unfold InitBias. cbn [e_prop conv_est]. rewrite Hip. cbn [option_map of_opt bind].
    assert (InitImuBias (set_err ip RightInvariant) = rmap (fun ip => set_err ip RightInvariant) (InitImuBias ip)) as ->.
    { unfold InitImuBias. cbn [ip_static set_err ip_init_size ip_vec ip_queue]. destruct (negb (ip_static ip)); [reflexivity|]. destruct (size_lt _ _).
      - destruct (ip_queue ip); reflexivity.
      - destruct (check _ _); reflexivity. }
    destruct (InitImuBias ip) as [ip'|]; reflexivity.
  - (* InitState *) destruct HA as [He _]. destruct (Hoff He) as [B B2]. pose proof (in_right_blank _ B) as EB.
    assert (forall m, hd_error (ip_queue ip) = Some m -> SO3 (init_rot ip m)) as HR.
    { intros m Hm. apply unit_rot. destruct (ip_queue ip) as [|x q]; [discriminate|]. injection Hm as ->. destruct HS as [HS _]. cbn in HS. inversion HS; auto. }
    cbn [est_step]. cbn [est_step] in HV. pose proof (InitState_spec fut e l ip) as SP.
    rewrite (InitState_eq e l ip Hip B HR) in *.
    rewrite (InitState_eq (conv_est e) l (set_err ip RightInvariant)); [|cbn [e_prop conv_est]; rewrite Hip; reflexivity|cbn [e_state conv_est]; rewrite EB; exact B|exact HR].
    cbn [ip_queue set_err e_corrs conv_est e_state e_heap e_enabled e_out e_logq]. rewrite EB.
    destruct (ip_queue ip) as [|m q] eqn:Eq.
    + cbn [rmap]. f_equal. unfold conv_est, e_set. cbn. rewrite deliver_conv, EB. reflexivity.
    + change (init_state 2 (set_err ip RightInvariant) m (e_state e)) with (init_state 2 ip m (e_state e)). rewrite spin_all_conv.
      destruct (spin_all (e_corrs e) (init_state 2 ip m (e_state e)) l) as [[cs s]|]; cbn [rmap bind]; [|reflexivity]. cbv zeta. cbn [bind] in SP, HV. cbv zeta in SP, HV.
      specialize (HV _ eq_refl eq_refl). destruct (SP _ HE He Hip eq_refl) as (us & _ & _ & _ & _ & _ & _ & W & _ & P0 & _ & _ & _ & PP & _).
      cbn [e_state e_set] in HV, W, P0, PP.
      assert (in_right (start_state e ip s) = start_state e ip s) as ES by (eapply in_right_start; [apply W|exact HV|exact P0|exact PP]).
      change (start_state (conv_est e) (set_err ip RightInvariant) s) with (start_state e ip s). f_equal. unfold conv_est at 2. unfold e_set. cbn [e_state e_heap e_prop option_map e_corrs e_enabled e_out e_logger e_logq e_pending e_lastpub e_rate e_lines e_names e_count e_files e_opened e_rot_cov e_vel_cov e_pos_cov e_slip].
      rewrite map_app. cbn [map]. rewrite ES. reflexivity.
  - (* RunOnce *) cbn [allowed] in HA. cbn [est_step]. destruct (HRun HA) as (tp & t & m & R1 & R2 & R3 & R4). cbn [map nondec] in R4. destruct R4 as [R4 R5].
    pose proof (Hon HA) as HC. pose proof HC as (ids & C & _). pose proof (contacts_wfp _ _ _ _ C) as W.
    unfold RunOnce. cbn [e_prop conv_est]. rewrite Hip. cbn [option_map of_opt bind e_state conv_est]. rewrite (Propagate_conv _ ip _ tp W R1 (HL1 _ Hip)).
    destruct (prop_step _ (e_heap e) ip (e_state e) tp m HC R1 HN R3 R4) as (b & ip' & s1 & E & C1 & EQ). rewrite E. cbn [bind rmap].
    assert (exists tp1 t1, stprop s1 = Some tp1 /\ st s1 = Some t1) as (tp1 & t1 & T1 & T2).
    { destruct (ip_queue ip) as [|x q] eqn:Eq.
      - destruct EQ as (_ & -> & ->). eauto.
      - destruct EQ as (_ & -> & E1 & E2). eauto. }
    cbn [e_corrs e_heap conv_est].
    rewrite (correct_all_conv (e_corrs e) None (e_heap e) s1 l tp1 t1); auto; try (cbn; lia).
    destruct (correct_all (e_corrs e) (e_heap e) s1 l) as [[[[b2 cs] h] s2]|]; cbn [rmap bind]; [|reflexivity].
    cbn [e_slip conv_est]. rewrite Hsl. cbn [bind e_logger e_out e_logq e_enabled conv_est].
    destruct (b || b2); cbn [rmap]; unfold conv_est, e_set; cbn [e_state e_heap e_prop option_map e_corrs e_enabled e_out e_logger e_logq e_pending e_lastpub e_rate e_lines e_names e_count e_files e_opened e_rot_cov e_vel_cov e_pos_cov e_slip]; [|reflexivity].
    destruct (e_logger e); rewrite ?map_app; reflexivity.
  - (* Clear *) cbn [est_step]. unfold Clear. cbn [e_prop conv_est]. rewrite Hip. cbn [option_map of_opt bind].
    assert (blank (RS_clear (e_state e))) as B1.
    { assert (stype (e_state e) = WorldCentric) as ET.
      { destruct (e_enabled e) eqn:He; [|apply (Hoff eq_refl)]. destruct (Hon eq_refl) as (ids & C & _). apply (contacts_wfp _ _ _ _ C). }
      split; cbn; auto. }
    pose proof (in_right_blank _ B1) as EB.
    change (RS_clear (e_state (conv_est e))) with (RS_clear (e_state e)).
    assert (map corr_clear (e_corrs (conv_est e)) = map c_right (map corr_clear (e_corrs e))) as EC.
    { cbn [e_corrs conv_est]. rewrite !map_map. apply map_ext. intros [c|c]; reflexivity. }
    rewrite EC. cbn [e_logger e_set conv_est e_names e_count]. destruct (e_logger e); [destruct (e_names e) as [pose vel] eqn:En|]; cbn [rmap]; f_equal;
      unfold e_reopen, conv_est, e_set; cbn; rewrite EB, ?En; reflexivity.
  - cbn [est_step rmap]. f_equal. unfold conv_est, e_set_out, e_set. cbn. destruct (e_out e); reflexivity.
  - cbn [est_step rmap]. f_equal. unfold LogPop. cbn [e_pending conv_est e_logq]. destruct (e_pending e) as [x|] eqn:Ep; cbn [option_map]; [reflexivity|]. destruct (e_logq e); reflexivity.
  - cbn [est_step]. unfold LogWrite. cbn [e_pending conv_est]. destruct (e_pending e) as [x|] eqn:Ep; cbn [option_map]; [|reflexivity].
    change (get_time (in_right x)) with (get_time x). destruct (get_time x) as [t|]; [|reflexivity]. cbn [bind e_logger e_rate e_lastpub conv_est].
    destruct (e_logger e && log_due (e_rate e) (t - e_lastpub e)); [|reflexivity].
    change (get_world_rotation (in_right x)) with (get_world_rotation x). change (get_world_position (in_right x)) with (get_world_position x).
    change (get_world_velocity (in_right x)) with (get_world_velocity x). change (get_body_velocity (in_right x)) with (get_body_velocity x).
    destruct (get_world_rotation x); [|reflexivity]. cbn [bind]. destruct (get_world_position x); [|reflexivity]. cbn [bind].
    destruct (get_world_velocity x); [|reflexivity]. cbn [bind]. destruct (get_body_velocity x); reflexivity.
Qed.

(** ** histories *)
Lemma same_in_right s : same_estimate s (in_right s). Proof. reflexivity. Qed.
Lemma same_map l : Forall2 same_estimate l (map in_right l).
Proof. induction l; cbn [map]; constructor; auto using same_in_right. Qed.
Lemma conv_output e : same_output e (conv_est e).
Proof. constructor; cbn [conv_est e_state e_enabled e_out e_logq e_lines e_opened]; auto using same_in_right, same_map. Qed.
Lemma conv_allowed e o : allowed e o -> allowed (conv_est e) o.
Proof.
  destruct o; cbn [allowed]; auto; unfold BiasInitialized; cbn [e_prop conv_est e_enabled]; intros [H1 H2]; (split; [exact H1|]); destruct (e_prop e); cbn in *; auto.
Qed.
Lemma init_out fut e l e' : est_ok fut e -> e_enabled e = false -> InitState e l = Ok e' -> e_enabled e' = true -> e_out e' = e_out e ++ [e_state e'].
Proof.
  intros HE He E H. destruct (ok_prop _ _ HE) as (ip & Hip & _). pose proof (InitState_spec _ _ _ _ _ HE He Hip E) as SP. destruct (ip_queue ip).
  - subst e'. cbn in H. congruence.
  - destruct SP as (us & _ & _ & _ & A & _). exact A.
Qed.
Lemma run_conv : forall os e, est_ok (imus os) e -> protocol e os -> lefty e ->
  (forall s, In s (published is_init_op e os) -> col (sX s) 0 = vzero) ->
  protocol (conv_est e) os /\ est_run (conv_est e) os = rmap conv_est (est_run e os) /\
  published any_op (conv_est e) os = map in_right (published any_op e os).
Proof.
  induction os as [|o os IH]; intros e HE HP HL HV; [cbn; auto|].
  rewrite imus_cons in HE. destruct HP as [HA HP].
  assert (est_step (conv_est e) o = rmap conv_est (est_step e o)) as ES.
  { apply (step_conv (imus os)); auto. intros e' E Ho. destruct o; try discriminate. cbn [op_imu app] in HE. cbn [published is_init_op] in HV. rewrite E in HV.
    cbn [est_step] in E. destruct HA as [He _]. destruct (e_enabled e') eqn:He'.
    - apply HV. rewrite (init_out _ _ _ _ HE He E He'). apply in_or_app. left. rewrite skipn_app, skipn_all, Nat.sub_diag. left. reflexivity.
    - destruct (ok_prop _ _ HE) as (ip & Hip & _). pose proof (InitState_spec _ _ _ _ _ HE He Hip E) as SP. destruct (ip_queue ip).
      + subst e'. cbn [e_state e_set_corrs e_set]. destruct (ok_off _ _ HE He) as [B _]. rewrite (bl_X _ B). apply eye_rot_col. lia.
      + destruct SP as (us & _ & A & _). congruence. }
  cbn [published protocol est_run foldM]. rewrite ES.
  destruct (step_safe _ _ _ HE HA) as [(e1 & E1 & HE1)|[E1 _]]; rewrite E1; cbn [rmap bind].
  - destruct (IH e1 HE1 (HP _ E1) (lefty_step _ _ _ HL E1)) as (I1 & I2 & I3).
    { intros s Hs. apply HV. cbn [published]. rewrite E1. apply in_or_app. right. exact Hs. }
    split; [split; [apply conv_allowed; exact HA|intros x [= <-]; exact I1]|]. split; [exact I2|].
    rewrite map_app, I3. f_equal. cbn [any_op conv_est e_out]. rewrite map_length, skipn_map. reflexivity.
  - split; [split; [apply conv_allowed; exact HA|discriminate]|]. auto.
Qed.
Lemma build_conv f : conv_est (build (with_err f LeftInvariant)) = build (with_err f RightInvariant).
Proof.
  rewrite !build_eq. unfold conv_est, e_set_corrs, e_set, add_imu_propagation, e_set_prop, e_set, InekfEstimator.
  cbn [e_state e_heap e_prop option_map e_corrs e_enabled e_out e_logger e_logq e_pending e_lastpub e_rate e_lines e_names e_count e_files e_opened e_rot_cov e_vel_cov e_pos_cov e_slip with_err f_err f_est f_imu f_corrs e_err map].
  rewrite in_right_blank by (constructor; reflexivity). rewrite map_map. f_equal. apply map_ext. intros [g|g]; reflexivity.
Qed.
Lemma lefty_build f : lefty (build (with_err f LeftInvariant)).
Proof.
  rewrite build_eq. split.
  - intros ip [= <-]. reflexivity.
  - cbn [e_corrs e_set_corrs e_set with_err f_corrs f_err]. apply Forall_map. apply Forall_forall. intros [g|g] _; reflexivity.
Qed.
Lemma thm_conv f os : config_ok f -> imu_stream (imus os) -> protocol (build (with_err f LeftInvariant)) os ->
  (forall s, In s (published is_init_op (build (with_err f LeftInvariant)) os) -> col (sX s) 0 = vzero) ->
  let el := build (with_err f LeftInvariant) in let er := build (with_err f RightInvariant) in
  protocol er os /\ Forall2 same_estimate (published any_op el os) (published any_op er os) /\
  match est_run el os, est_run er os with
  | Ok a, Ok b => same_output a b
  | Fail a, Fail b => a = b
  | _, _ => False
  end.
Proof.
  intros HC HS HP HV el er. unfold er. rewrite <- build_conv. fold el.
  destruct (run_conv os el (build_ok (with_err f LeftInvariant) _ HC HS) HP (lefty_build f) HV) as (A & B & C). split; [exact A|]. rewrite C. split; [apply same_map|].
  rewrite B. destruct (est_run el os) as [a|]; cbn [rmap]; [apply conv_output|reflexivity].
Qed.

