(** Proofs: C87, the whole estimator with every noise parameter in another unit. *)
From Coq Require Import Reals ZArith List Bool Arith Lia Lra.
From Verif Require Import Res Vec3 Mat MatInv Psd Spec LieGroup LieSO3 LieSEK RobotState StateProofs Inekf SpecFilter InekfThms Blk Imu Propagation SpecProp
  PropagationThms PropagationLog ImuRest ImuThms ImuNeg Queue VelCorr LegCorr SpecCorr VelThms PsdBlk LegThms LegUpd LegHist Estimator SpecEst EstInv EstSafe EstPub EstHist EstTime
  ConvLeg ConvFilter SpecConv SpecScale Scale.
Import ListNotations.
Local Open Scope R_scope.

Section Est.
Variables (c : R) (Hc : c <> 0) (k : R) (Hk : c = k * k) (gb ab : M3).
Definition c_mul (x : corr_obj) : corr_obj := match x with CVel v => CVel (mul_vc c v) | CLeg l => CLeg (mul_lc c k l) end.
Notation mip := (mul_ip c gb ab).

(** ** initialisation: only the covariances differ *)
Lemma vel_spin_mul P : forall sched v s, vel_spin (mul_vc c v) (set_P s P) sched = rmap (fun '(v, s) => (mul_vc c v, set_P s P)) (vel_spin v s sched).
Proof.
  assert (forall v s a, vel_initialize (mul_vc c v) (set_P s P) a = rmap (fun '(b, v, s) => (b, mul_vc c v, set_P s P)) (vel_initialize v s a)) as HI.
  { intros v s a. unfold vel_initialize. cbn [vc_queue mul_vc]. destruct (vc_queue v ++ a); [reflexivity|]. change (get_rotation (set_P s P)) with (get_rotation s).
    destruct (get_rotation s); [|reflexivity]. cbn [bind]. unfold set_velocity. cbn [sX set_P]. destruct (cput _ _ _ _); reflexivity. }
  induction sched as [|x xs IH]; intros v s; cbn [vel_spin]; rewrite HI; destruct (vel_initialize v s _) as [[[b c1] s1]|]; cbn [rmap bind]; try reflexivity; destruct b; try reflexivity.
  apply IH.
Qed.
Lemma leg_spin_mul P : forall sched v s, leg_spin (mul_lc c k v) (set_P s P) sched = rmap (fun '(v, s) => (mul_lc c k v, set_P s P)) (leg_spin v s sched).
Proof.
  assert (forall v s a, leg_initialize (mul_lc c k v) (set_P s P) a = rmap (fun '(b, v, s) => (b, mul_lc c k v, set_P s P)) (leg_initialize v s a)) as HI.
  { intros v s a. unfold leg_initialize. cbn [lc_queue mul_lc]. destruct (lc_queue v ++ a); [reflexivity|]. change (get_body_angular_velocity (set_P s P)) with (get_body_angular_velocity s).
    destruct (get_body_angular_velocity s); [|reflexivity]. cbn [bind]. change (get_rotation (set_P s P)) with (get_rotation s).
    destruct (get_rotation s); [|reflexivity]. cbn [bind]. unfold set_velocity. cbn [sX set_P]. destruct (cput _ _ _ _); reflexivity. }
  induction sched as [|x xs IH]; intros v s; cbn [leg_spin]; rewrite HI; destruct (leg_initialize v s _) as [[[b c1] s1]|]; cbn [rmap bind]; try reflexivity; destruct b; try reflexivity.
  apply IH.
Qed.
Lemma spin_all_mul P : forall cs s l, spin_all (map c_mul cs) (set_P s P) l = rmap (fun '(cs, s) => (map c_mul cs, set_P s P)) (spin_all cs s l).
Proof.
  induction cs as [|x cs IH]; intros s l; [reflexivity|]. cbn [map spin_all].
  assert (corr_spin (c_mul x) (set_P s P) (hd_arr l) = rmap (fun '(x, s) => (c_mul x, set_P s P)) (corr_spin x s (hd_arr l))) as ->.
  { destruct x as [x|x]; cbn [c_mul corr_spin].
    - rewrite vel_spin_mul. destruct (vel_spin x s _) as [[c1 s1]|]; reflexivity.
    - rewrite leg_spin_mul. destruct (leg_spin x s _) as [[c1 s1]|]; reflexivity. }
  destruct (corr_spin x s (hd_arr l)) as [[c1 s1]|]; cbn [rmap bind]; [|reflexivity]. rewrite IH. destruct (spin_all cs s1 (tl_arr l)) as [[cs2 s2]|]; reflexivity.
Qed.
Lemma spin_all_sen : forall cs s l cs' s', spin_all cs s l = Ok (cs', s') -> sen s' = sen s.
Proof.
  assert (forall s v s', set_velocity s v = Ok s' -> sen s' = sen s) as HV.
  { intros s v s' E. unfold set_velocity in E. destruct (cput _ _ _ _); [injection E as <-; reflexivity|discriminate]. }
  assert (forall sched v s v' s', vel_spin v s sched = Ok (v', s') -> sen s' = sen s) as H1.
  { induction sched as [|x xs IH]; intros v s v' s' E; cbn [vel_spin] in E; unfold vel_initialize in E; destruct (vc_queue v ++ _); cbn [bind] in E; try discriminate; eauto;
      destruct (get_rotation s); cbn [bind] in E; try discriminate; destruct (set_velocity s _) eqn:EV; cbn [bind] in E; try discriminate; injection E as <- <-; exact (HV _ _ _ EV). }
  assert (forall sched v s v' s', leg_spin v s sched = Ok (v', s') -> sen s' = sen s) as H2.
  { induction sched as [|x xs IH]; intros v s v' s' E; cbn [leg_spin] in E; unfold leg_initialize in E; destruct (lc_queue v ++ _); cbn [bind] in E; try discriminate; eauto;
      destruct (get_body_angular_velocity s); cbn [bind] in E; try discriminate; destruct (get_rotation s); cbn [bind] in E; try discriminate; destruct (set_velocity s _) eqn:EV; cbn [bind] in E; try discriminate; injection E as <- <-; exact (HV _ _ _ EV). }
  induction cs as [|x cs IH]; intros s l cs' s' E; cbn [spin_all] in E; [congruence|].
  destruct (corr_spin x s (hd_arr l)) as [[x1 s1]|] eqn:E1; [|discriminate]. cbn [bind] in E. destruct (spin_all cs s1 (tl_arr l)) as [[cs2 s2]|] eqn:E2; [|discriminate]. cbn [bind] in E.
  assert (s' = s2) as -> by congruence. rewrite (IH _ _ _ _ E2). destruct x as [x|x]; cbn [corr_spin] in E1.
  - destruct (vel_spin x s _) as [[y z]|] eqn:E3; [|discriminate]. cbn [bind] in E1. assert (s1 = z) as -> by congruence. eauto.
  - destruct (leg_spin x s _) as [[y z]|] eqn:E3; [|discriminate]. cbn [bind] in E1. assert (s1 = z) as -> by congruence. eauto.
Qed.
Lemma deliver_mul : forall cs l, deliver_all (map c_mul cs) l = map c_mul (deliver_all cs l).
Proof. induction cs as [|[x|x] cs IH]; intros l; cbn [map deliver_all]; [reflexivity| |]; rewrite IH; reflexivity. Qed.
Lemma upd_mul v l : forall i cs, upd_nth (map c_mul cs) i (fun x => push_corr x v l) = map c_mul (upd_nth cs i (fun x => push_corr x v l)).
Proof. induction i as [|i IH]; intros [|[x|x] cs]; cbn [map upd_nth]; try reflexivity; rewrite IH; reflexivity. Qed.

(** ** the corrections *)
Lemma correct_all_mul : forall cs ctx h s s' l tp t, (n_leg cs + n_ctx ctx <= 1)%nat -> Forall corr_noise cs ->
  core (pick ctx cs) h s -> stprop s = Some tp -> st s = Some t -> sen s = false -> scaled c s s' ->
  exists b cs1 h1 s1 s1', correct_all cs h s l = Ok (b, cs1, h1, s1) /\ correct_all (map c_mul cs) h s' l = Ok (b, map c_mul cs1, h1, s1') /\ scaled c s1 s1' /\ sen s1 = false.
Proof.
  induction cs as [|x cs IH]; intros ctx h s s' l tp t Hl HN HC Ht Hs En S; cbn [correct_all map].
  { do 5 eexists. do 2 (split; [reflexivity|]). auto. }
  pose proof (Forall_inv HN) as HNc. pose proof (Forall_inv_tail HN) as HNs. pose proof HC as (ids & C & HP & _). destruct x as [x|x]; cbn [corr_Correct c_mul].
  - pose proof (vel_Correct_scale c Hc (2 + length ids) x s s' (a_vel (hd_arr l)) (contacts_wfp _ _ _ _ C) En S) as HV.
    destruct (vel_step _ h x s (a_vel (hd_arr l)) tp t HC HNc Ht Hs) as (b & x' & s1 & t1 & E & C1 & N1 & T1 & S1). rewrite E in HV |- *. cbn [bind].
    destruct (vel_Correct (mul_vc c x) s' (a_vel (hd_arr l))) as [[[b' x2] s1']|]; [|contradiction]. destruct HV as (-> & -> & S2 & En2). cbn [bind].
    destruct (IH ctx h s1 s1' (tl_arr l) tp t1) as (b2 & cs2 & h2 & s2 & s2' & E1 & E2 & E3 & E4); auto. rewrite E1, E2. cbn [bind]. do 5 eexists. do 2 (split; [reflexivity|]). auto.
  - assert (ctx = None /\ n_leg cs = 0%nat) as [-> L0].
    { unfold n_leg in Hl. cbn in Hl. destruct ctx; cbn in Hl; [lia|]. split; [reflexivity|]. unfold n_leg. lia. }
    cbn [pick leg_of] in HC, C.
    pose proof (leg_Correct_scale c Hc k Hk x h s s' ids (a_leg (hd_arr l)) C En S) as HV.
    destruct (leg_step x h s (a_leg (hd_arr l)) tp t HC HNc Ht Hs) as (b & x' & h1 & s1 & t1 & E & C1 & N1 & T1 & S1). rewrite E in HV |- *. cbn [bind].
    destruct (leg_Correct (mul_lc c k x) h s' (a_leg (hd_arr l))) as [[[[b' x2] h1'] s1']|]; [|contradiction]. destruct HV as (-> & -> & -> & S2 & En2). cbn [bind].
    destruct (IH (Some x') h1 s1 s1' (tl_arr l) tp t1) as (b2 & cs2 & h2 & s2 & s2' & E1 & E2 & E3 & E4); auto; [rewrite L0; cbn; lia|]. rewrite E1, E2. cbn [bind]. do 5 eexists. do 2 (split; [reflexivity|]). auto.
Qed.

(** ** the estimator *)
Definition mul_est (e : est) (s : rstate) (out lq : list rstate) (pd : option rstate) : est :=
  mkEst (e_err e) s (e_heap e) (option_map mip (e_prop e)) (map c_mul (e_corrs e)) (e_enabled e)
    out (e_logger e) lq pd (e_lastpub e) (e_rate e) (e_lines e) (e_names e)
    (e_count e) (e_files e) (e_opened e) (c * e_rot_cov e) (c * e_vel_cov e) (c * e_pos_cov e) (e_slip e).
Definition rels (e : est) (s : rstate) (out lq : list rstate) (pd : option rstate) : Prop :=
  (if e_enabled e then scaled c (e_state e) s /\ sen (e_state e) = false else s = e_state e) /\
  Forall2 (scaled c) (e_out e) out /\ Forall2 (scaled c) (e_logq e) lq /\
  match e_pending e, pd with Some x, Some y => scaled c x y | None, None => True | _, _ => False end.
Definition quiet (e : est) : Prop := forall ip, e_prop e = Some ip -> ip_enable ip = false.
Lemma quiet_step e o e' : quiet e -> est_step e o = Ok e' -> quiet e'.
Proof.
  intros H1 E. destruct (step_fixed _ _ _ E) as (_ & _ & F2).
  intros ip Hip. rewrite Hip in F2. destruct (e_prop e) as [ip0|] eqn:Hip0; [|discriminate]. cbn [option_map] in F2.
  assert (ip_fixed ip = ip_fixed ip0) as F by congruence. rewrite <- (H1 ip0 Hip0). change (ip_enable ip) with (snd (fst (ip_fixed ip))).
  rewrite F. reflexivity.
Qed.
Ltac t_cbn := cbn [e_err e_state e_heap e_prop option_map e_corrs e_enabled e_out e_logger e_logq e_pending e_lastpub e_rate e_lines e_names e_count e_files e_opened e_rot_cov e_vel_cov e_pos_cov e_slip e_set].
Lemma start_scaled r v p g a g' a' : scaled_cov c (bdiag 5 (init_blocks r v p g a)) (bdiag 5 (init_blocks (c * r) (c * v) (c * p) g' a')).
Proof.
  split; [reflexivity|]. split; [reflexivity|]. change (nr (bdiag 5 (init_blocks r v p g a))) with 15%nat. change (nc (bdiag 5 (init_blocks r v p g a))) with 15%nat.
  intros i j Hi Hj. unfold bdiag, blk. rewrite !ent_mk by lia.
  assert (i / 3 < 3)%nat as Hi3 by (apply Nat.div_lt_upper_bound; lia). assert (i mod 3 < 3)%nat as Hm by (apply Nat.mod_upper_bound; lia). assert (j mod 3 < 3)%nat as Hm' by (apply Nat.mod_upper_bound; lia).
  destruct (Nat.eqb (i / 3) (j / 3)).
  - destruct (i / 3)%nat as [|[|[|x]]]; [| | |lia]; cbn [init_blocks]; rewrite !mget_scl by auto; ring.
  - assert (mget mzero (i mod 3) (j mod 3) = 0) as ->; [|ring]. destruct (i mod 3)%nat as [|[|[|]]]; try lia; destruct (j mod 3)%nat as [|[|[|]]]; try lia; reflexivity.
Qed.
Lemma step_mul fut e o s out lq pd : est_ok (op_imu o ++ fut) e -> allowed e o -> quiet e -> rels e s out lq pd ->
  match est_step e o with
  | Ok e1 => exists s1 out1 lq1 pd1, est_step (mul_est e s out lq pd) o = Ok (mul_est e1 s1 out1 lq1 pd1) /\ rels e1 s1 out1 lq1 pd1
  | Fail x => est_step (mul_est e s out lq pd) o = Fail x
  end.
Proof.
  intros HE HA HQ (R1 & R2 & R3 & R4).
  pose proof HE as [(ip & Hip & HN & HCal & HS & HRun) Hno Hle Hsl Hcov Hon Hoff Hpub]. pose proof (HQ ip Hip) as Hen.
  destruct o; cbn [op_imu app] in *.
  - cbn [est_step]. cbn [e_prop mul_est]. rewrite Hip. cbn [option_map of_opt bind]. exists s, out, lq, pd. split; [reflexivity|]. exact (conj R1 (conj R2 (conj R3 R4))).
  - cbn [est_step]. exists s, out, lq, pd. split; [|exact (conj R1 (conj R2 (conj R3 R4)))].
    unfold mul_est, e_set_corrs. t_cbn. rewrite upd_mul. reflexivity.
  - cbn [est_step]. exists s, out, lq, pd. split; [|exact (conj R1 (conj R2 (conj R3 R4)))].
    unfold mul_est, e_set_corrs. t_cbn. rewrite upd_mul. reflexivity.
  - cbn [est_step]. unfold InitBias. cbn [e_prop mul_est]. rewrite Hip. cbn [option_map of_opt bind].
    assert (InitImuBias (mip ip) = rmap mip (InitImuBias ip)) as ->.
    { unfold InitImuBias. cbn [ip_static mul_ip ip_init_size ip_vec ip_queue]. destruct (negb (ip_static ip)); [reflexivity|]. destruct (size_lt _ _).
      - destruct (ip_queue ip); reflexivity.
      - destruct (check _ _); reflexivity. }
    destruct (InitImuBias ip) as [ip'|]; cbn [rmap bind]; [|reflexivity]. exists s, out, lq, pd. split; [reflexivity|]. exact (conj R1 (conj R2 (conj R3 R4))).
  - (* InitState *) destruct HA as [He _]. destruct (Hoff He) as [B B2]. rewrite He in R1.
    assert (forall m, hd_error (ip_queue ip) = Some m -> SO3 (init_rot ip m)) as HR.
    { intros m Hm. apply unit_rot. destruct (ip_queue ip) as [|x q]; [discriminate|]. injection Hm as ->. destruct HS as [HS _]. cbn in HS. exact (Forall_inv HS). }
    cbn [est_step]. pose proof (InitState_spec fut e l ip) as SP.
    rewrite (InitState_eq e l ip Hip B HR) in *.
    rewrite (InitState_eq (mul_est e s out lq pd) l (mip ip)); [|cbn [e_prop mul_est]; rewrite Hip; reflexivity|cbn [e_state mul_est]; rewrite R1; exact B|exact HR].
    cbn [ip_queue mul_ip e_corrs mul_est e_state e_heap e_enabled e_out e_logq]. rewrite R1.
    destruct (ip_queue ip) as [|m q] eqn:Eq.
    + exists (e_state e), out, lq, pd. split.
      * unfold mul_est. t_cbn. rewrite deliver_mul. reflexivity.
      * unfold rels. t_cbn. rewrite He. auto.
    + set (s0 := init_state 2 ip m (e_state e)) in *. assert (wfp 2 s0) as W0 by (apply init_state_wfp; [apply blank_wfp; exact B|apply HR; reflexivity]).
      assert (exists P, init_state 2 (mip ip) m (e_state e) = set_P s0 P) as [P ->] by (eexists; reflexivity). rewrite spin_all_mul.
      pose proof (spin_all_ok 2 (i_w m) (e_corrs e) s0 l W0 eq_refl) as (_ & HSP & _).
      destruct (spin_all (e_corrs e) s0 l) as [[cs s1]|] eqn:ES; cbn [rmap bind]; [|reflexivity]. cbv zeta. cbn [bind] in SP. cbv zeta in SP.
      destruct (HSP _ _ eq_refl) as (_ & _ & _ & _ & _ & _ & _ & HQc & _).
      assert (sQc s1 = mO 15 15) as EQc by (rewrite HQc; exact (bl_Q _ B)).
      assert (scaled c (start_state e ip s1) (start_state (mul_est e s out lq pd) (mip ip) (set_P s1 P))) as HSc.
      { unfold start_state. cbn [e_rot_cov e_vel_cov e_pos_cov mul_est ip_gyro_bias_cov ip_accel_bias_cov mul_ip]. split; cbn [sP set_P]; [apply start_scaled|].
        unfold set_P, set_Qc. cbn [sQc sP stype sX sTheta scmap st stprop sbav sen sslip]. rewrite EQc. replace (c *S mO 15 15) with (mO 15 15); [reflexivity|].
        apply mat_ext; mdim; auto. intros i j Hi Hj. rewrite ent_scl, !ent_O. ring. }
      do 4 eexists. split; [unfold mul_est; t_cbn; reflexivity|].
      unfold rels. t_cbn. split; [split; [exact HSc|]|].
      { unfold start_state. cbn [sen set_P]. rewrite (spin_all_sen _ _ _ _ _ ES). exact Hen. }
      split; [|auto]. apply Forall2_app; auto.
  - (* RunOnce *) cbn [allowed] in HA. cbn [est_step]. destruct (HRun HA) as (tp & t & m & Q1 & Q2 & Q3 & Q4). cbn [map nondec] in Q4. destruct Q4 as [Q4 Q5].
    rewrite HA in R1. destruct R1 as [R1 R1'].
    pose proof (Hon HA) as HC. pose proof HC as (ids & C & _). pose proof (contacts_wfp _ _ _ _ C) as W.
    unfold RunOnce. cbn [e_prop mul_est]. rewrite Hip. cbn [option_map of_opt bind e_state mul_est].
    pose proof (Propagate_scale c (2 + length ids) gb ab ip (e_state e) s tp W Q1 Hen R1) as HPr.
    destruct (prop_step _ (e_heap e) ip (e_state e) tp m HC Q1 HN Q3 Q4) as (b & ip' & s1 & E & C1 & EQ). rewrite E in HPr |- *. cbn [bind rmap].
    destruct (Propagate (mip ip) s) as [[[b' ip2] s1']|]; [|contradiction]. destruct HPr as (-> & -> & S1). cbn [bind].
    assert (sen s1 = false) as En1.
    { unfold Propagate in E. destruct (ip_queue ip) as [|x q]; [congruence|]. rewrite Q3 in E. cbn [of_opt bind] in E. destruct (propagate_with _ m (e_state e)) as [z|] eqn:EP; [|discriminate]. cbn [bind] in E.
      destruct (step_wfp _ _ m _ tp z W Q1 EP) as (_ & _ & _ & _ & _ & _ & _ & F & _). congruence. }
    assert (exists tp1 t1, stprop s1 = Some tp1 /\ st s1 = Some t1) as (tp1 & t1 & T1 & T2).
    { destruct (ip_queue ip) as [|x q] eqn:Eq.
      - destruct EQ as (_ & -> & ->). eauto.
      - destruct EQ as (_ & -> & E1 & E2). eauto. }
    cbn [e_corrs e_heap mul_est].
    destruct (correct_all_mul (e_corrs e) None (e_heap e) s1 s1' l tp1 t1) as (b2 & cs2 & h2 & s2 & s2' & E1 & E2 & E3 & E4); auto; try (cbn; lia).
    rewrite E1, E2. cbn [bind].
    cbn [e_slip mul_est]. rewrite Hsl. cbn [bind e_logger e_out e_logq e_enabled mul_est].
    destruct (b || b2).
    + do 4 eexists. split; [unfold mul_est; t_cbn; reflexivity|]. unfold rels. t_cbn. rewrite HA. split; [auto|]. split; [apply Forall2_app; auto|].
      split; [|exact R4]. destruct (e_logger e); [apply Forall2_app; auto|exact R3].
    + do 4 eexists. split; [unfold mul_est; t_cbn; reflexivity|]. unfold rels. t_cbn. rewrite HA. auto.
  - (* Clear *) cbn [est_step]. unfold Clear. cbn [e_prop mul_est]. rewrite Hip. cbn [option_map of_opt bind].
    assert (RS_clear (e_state (mul_est e s out lq pd)) = RS_clear (e_state e)) as ->.
    { cbn [e_state mul_est]. destruct (e_enabled e); [|rewrite R1; reflexivity]. destruct R1 as [[_ ->] _]. reflexivity. }
    assert (map corr_clear (e_corrs (mul_est e s out lq pd)) = map c_mul (map corr_clear (e_corrs e))) as EC.
    { cbn [e_corrs mul_est]. rewrite !map_map. apply map_ext. intros [x|x]; reflexivity. }
    rewrite EC. cbn [e_logger e_set mul_est e_names e_count].
    destruct (e_logger e); [destruct (e_names e) as [pose vel] eqn:En|]; (exists (RS_clear (e_state e)), [], [], pd); (split);
      try (unfold rels, e_reopen; t_cbn; auto; fail); f_equal; unfold e_reopen, mul_est; t_cbn; rewrite ?En; reflexivity.
  - cbn [est_step]. exists s, (tl out), lq, pd. split; [reflexivity|]. unfold rels, e_set_out. t_cbn. split; [exact R1|]. split; [|auto].
    destruct R2; cbn [tl]; auto.
  - cbn [est_step]. unfold LogPop. cbn [e_pending mul_est e_logq]. destruct (e_pending e) as [x|] eqn:Ep, pd as [y|]; try contradiction.
    + exists s, out, lq, (Some y). split; [unfold mul_est; reflexivity|]. unfold rels; rewrite Ep; auto.
    + destruct (e_logq e) as [|x q] eqn:El.
      * assert (lq = []) as -> by (inversion R3; reflexivity). exists s, out, [], None. split; [reflexivity|]. unfold rels; rewrite Ep, El; auto.
      * destruct lq as [|y q']; [inversion R3|]. assert (scaled c x y /\ Forall2 (scaled c) q q') as [A1 A2] by (inversion R3; auto).
        exists s, out, q', (Some y). split; [reflexivity|]. unfold rels, e_log; t_cbn; auto.
  - cbn [est_step]. unfold LogWrite. cbn [e_pending mul_est]. destruct (e_pending e) as [x|] eqn:Ep, pd as [y|]; try contradiction.
    2:{ exists s, out, lq, None. split; [reflexivity|]. unfold rels; rewrite Ep; auto. }
    destruct R4 as [_ R4]. rewrite R4.
    change (get_time (set_P (set_Qc x (c *S sQc x)) (sP y))) with (get_time x). destruct (get_time x) as [t|]; [|reflexivity]. cbn [bind e_logger e_rate e_lastpub mul_est].
    destruct (e_logger e && log_due (e_rate e) (t - e_lastpub e)).
    2:{ exists s, out, lq, None. split; [reflexivity|]. unfold rels, e_log; t_cbn; auto. }
    change (get_world_rotation (set_P (set_Qc x (c *S sQc x)) (sP y))) with (get_world_rotation x). change (get_world_position (set_P (set_Qc x (c *S sQc x)) (sP y))) with (get_world_position x).
    change (get_world_velocity (set_P (set_Qc x (c *S sQc x)) (sP y))) with (get_world_velocity x). change (get_body_velocity (set_P (set_Qc x (c *S sQc x)) (sP y))) with (get_body_velocity x).
    destruct (get_world_rotation x); [|reflexivity]. cbn [bind]. destruct (get_world_position x); [|reflexivity]. cbn [bind].
    destruct (get_world_velocity x); [|reflexivity]. cbn [bind]. destruct (get_body_velocity x); [|reflexivity]. cbn [bind].
    exists s, out, lq, None. split; [reflexivity|]. unfold rels, e_log; t_cbn; auto.
Qed.

(** ** histories *)
Lemma mul_allowed e s out lq pd o : allowed e o -> allowed (mul_est e s out lq pd) o.
Proof.
  destruct o; cbn [allowed]; auto; unfold BiasInitialized; cbn [e_prop mul_est e_enabled]; intros [H1 H2]; (split; [exact H1|]); destruct (e_prop e); cbn in *; auto.
Qed.
Lemma F2_len {A B} (P : A -> B -> Prop) l l' : Forall2 P l l' -> length l = length l'.
Proof. induction 1; cbn; congruence. Qed.
Lemma F2_skipn {A B} (P : A -> B -> Prop) l l' n : Forall2 P l l' -> Forall2 P (skipn n l) (skipn n l').
Proof. intros H. revert n. induction H; intros [|n]; cbn [skipn]; auto. Qed.
Lemma run_mul : forall os e s out lq pd, est_ok (imus os) e -> protocol e os -> quiet e -> rels e s out lq pd ->
  protocol (mul_est e s out lq pd) os /\
  Forall2 (scaled c) (published any_op e os) (published any_op (mul_est e s out lq pd) os) /\
  match est_run e os with
  | Ok a => exists s1 out1 lq1 pd1, est_run (mul_est e s out lq pd) os = Ok (mul_est a s1 out1 lq1 pd1) /\ rels a s1 out1 lq1 pd1
  | Fail x => est_run (mul_est e s out lq pd) os = Fail x
  end.
Proof.
  induction os as [|o os IH]; intros e s out lq pd HE HP HQ HR.
  { cbn. split; [exact I|]. split; [constructor|]. exists s, out, lq, pd. auto. }
  rewrite imus_cons in HE. destruct HP as [HA HP]. pose proof (step_mul (imus os) e o s out lq pd HE HA HQ HR) as ES.
  pose proof (mul_allowed e s out lq pd o HA) as HA'. cbn [published protocol est_run foldM].
  destruct (step_safe _ _ _ HE HA) as [(e1 & E1 & HE1)|[E1 _]]; rewrite E1 in *; cbn [bind].
  - destruct ES as (s1 & out1 & lq1 & pd1 & ES & HR1). rewrite ES. cbn [bind]. destruct (IH e1 s1 out1 lq1 pd1 HE1 (HP _ eq_refl) (quiet_step _ _ _ HQ E1) HR1) as (I1 & I2 & I3).
    split; [split; [exact HA'|intros x [= <-]; exact I1]|]. split; [|exact I3].
    apply Forall2_app; [|exact I2]. cbn [any_op mul_est e_out]. destruct HR as (_ & H2 & _). rewrite (F2_len _ _ _ H2). apply F2_skipn. apply HR1.
  - rewrite ES. split; [split; [exact HA'|discriminate]|]. split; [constructor|reflexivity].
Qed.
End Est.

(** ** the two configurations *)
Lemma dflt_eq {A} (a b : option A) d : b = a -> dflt b d = dflt a d. Proof. congruence. Qed.
Lemma mid_scl a b c : b = c * a -> b *ms mid = c *ms (a *ms mid).
Proof. intros ->. ring3. Qed.
Lemma louder_prop k er a b : louder_imu k a b -> exists gb ab, ImuPropagation [] er b = mul_ip (k * k) gb ab (ImuPropagation [] er a).
Proof.
  intros (H1 & H2 & H3 & H4 & H5 & H6 & H7 & H8 & H9 & H10). unfold louder_std in *. eexists _, _. unfold ImuPropagation, mul_ip.
  cbn [ip_queue ip_err ip_static ip_init_size ip_use_ori ip_Rib ip_gyro_cov ip_accel_cov ip_gyro_bias_cov ip_accel_bias_cov ip_bg0 ip_ba0 ip_enable ip_t ip_bias_init ip_vec ip_prev].
  rewrite H1, H2, H3, H4, H5, H6, H7, H8, H9, H10. set (x := dflt (c_gyro_std a) (1 / 10)). set (y := dflt (c_accel_std a) (1 / 10)).
  rewrite (mid_scl (x * x) ((k * x) * (k * x)) (k * k)) by ring. rewrite (mid_scl (y * y) ((k * y) * (k * y)) (k * k)) by ring. reflexivity.
Qed.
Lemma louder_mk k er a b : louder_corr k a b -> mk_corr er b = c_mul (k * k) k (mk_corr er a).
Proof.
  destruct a as [a|a], b as [b|b]; cbn [louder_corr mk_corr c_mul]; try contradiction; unfold louder_std.
  - intros (H1 & H2 & H3 & H4). f_equal. unfold VelocityCorrection, mul_vc. cbn [vc_queue vc_err vc_cov vc_thr vc_R vc_scale]. rewrite H1, H2, H3, H4.
    set (x := dflt (g_std a) (1 / 10)). rewrite (mid_scl (x * x) ((k * x) * (k * x)) (k * k)) by ring. reflexivity.
  - intros (H1 & H2 & H3 & H4). f_equal. unfold LeggedKinematicsCorrection, mul_lc. cbn [lc_queue lc_err lc_enc_std lc_kin_std lc_contact_cov lc_thr lc_map]. rewrite H1, H2, H3, H4.
    set (x := dflt (h_contact a) (1 / 10)). rewrite (mid_scl (x * x) ((k * x) * (k * x)) (k * k)) by ring. reflexivity.
Qed.
Lemma louder_build k f f' : louder k f f' -> exists gb ab, build f' = mul_est (k * k) k gb ab (build f) RS_default [] [] None.
Proof.
  intros (H1 & (E1 & E2 & E3 & E4 & E5 & E6 & E7) & H3 & H4). destruct (louder_prop k (f_err f) _ _ H3) as (gb & ab & HI). exists gb, ab.
  rewrite !build_eq. unfold e_set_corrs, add_imu_propagation, e_set_prop. rewrite H1.
  assert (map (mk_corr (f_err f)) (f_corrs f') = map (c_mul (k * k) k) (map (mk_corr (f_err f)) (f_corrs f))) as ->.
  { rewrite map_map. induction H4 as [|a b l l' H _ IH]; cbn [map]; [reflexivity|]. rewrite IH, (louder_mk k _ _ _ H). reflexivity. }
  unfold mul_est, e_set, InekfEstimator. cbn [e_err e_state e_heap e_prop option_map e_corrs e_enabled e_out e_logger e_logq e_pending e_lastpub e_rate e_lines e_names e_count e_files e_opened e_rot_cov e_vel_cov e_pos_cov e_slip].
  rewrite HI, E1, E2, E3, E4, E5, E6, E7. reflexivity.
Qed.
Lemma thm_scale f f' os k : config_ok f -> imu_stream (imus os) -> protocol (build f) os -> dflt (c_enable (f_imu f)) false = false -> k <> 0 -> louder k f f' ->
  protocol (build f') os /\ Forall2 (scaled (k * k)) (published any_op (build f) os) (published any_op (build f') os) /\
  match est_run (build f) os, est_run (build f') os with
  | Ok a, Ok b => scaled_output (k * k) a b
  | Fail a, Fail b => a = b
  | _, _ => False
  end.
Proof.
  intros HC HS HP He Hk0 HL. assert (k * k <> 0) as Hc by (apply Rmult_integral_contrapositive; auto).
  destruct (louder_build k f f' HL) as (gb & ab & EB). rewrite EB.
  destruct (run_mul (k * k) Hc k eq_refl gb ab os (build f) RS_default [] [] None (build_ok f _ HC HS) HP) as (A & B & C).
  - intros ip Hip. rewrite build_eq in Hip. cbn in Hip. injection Hip as <-. exact He.
  - rewrite build_eq. repeat split; constructor.
  - split; [exact A|]. split; [exact B|]. destruct (est_run (build f) os) as [a|].
    + destruct C as (s1 & out1 & lq1 & pd1 & -> & (R1 & R2 & R3 & R4)). constructor; cbn [mul_est e_state e_enabled e_out e_logq e_lines e_opened]; auto.
      destruct (e_enabled a); tauto.
    + rewrite C. reflexivity.
Qed.
