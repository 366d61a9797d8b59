(** Proofs: C70, turning the heading of the IMU turns everything the estimator publishes. *)
From Coq Require Import Reals ZArith List Bool Lia Lra.
From Verif Require Import Res Vec3 Mat LieGroup MatInv Psd Spec SpecState LieSO3 LieSEK LieThms RobotState StateProofs StateHist StateMisc Inekf SpecFilter
  InekfProofs InekfThms Imu Propagation SpecProp Blk PsdBlk PropagationProofs PropagationThms PropagationLog ImuThms ImuRest Queue VelCorr LegCorr SpecCorr ImuNeg VelThms LegThms LegAdd LegLoop LegUpd LegHist CorrInno
  Quat QuatThms Estimator SpecEst EstInv EstSafe EstPub EstHist EstTime ConvLeg ConvFilter SpecConv ConvEst SpecYaw YawFilter YawSteps YawEst.
Import ListNotations.
Local Open Scope R_scope.

(** ** quaternions *)
Definition hom_rot (q : quat) : M3 :=
  let w := qw q in let x := qx q in let y := qy q in let z := qz q in
  mkM (w*w+x*x-y*y-z*z) (2*(x*y-w*z)) (2*(x*z+w*y)) (2*(x*y+w*z)) (w*w-x*x+y*y-z*z) (2*(y*z-w*x)) (2*(x*z-w*y)) (2*(y*z+w*x)) (w*w-x*x-y*y+z*z).
Lemma hom_rot_eq q : qnorm2 q = 1 -> toRotationMatrix q = hom_rot q.
Proof. destruct q as [w x y z]. unfold qnorm2, toRotationMatrix, hom_rot. cbn [qw qx qy qz]. intros H. apply M3_eq; cbn; lra. Qed.
Lemma qmul_norm a b : qnorm2 (qmul a b) = qnorm2 a * qnorm2 b.
Proof. destruct a as [a0 a1 a2 a3], b as [b0 b1 b2 b3]. unfold qnorm2, qmul. cbn [qw qx qy qz]. ring. Qed.
Lemma hom_rot_mul a b : hom_rot (qmul a b) = hom_rot a *m hom_rot b.
Proof. destruct a as [a0 a1 a2 a3], b as [b0 b1 b2 b3]. unfold hom_rot, qmul. cbn [qw qx qy qz]. ring3. Qed.
Lemma qmul_rot a b : qnorm2 a = 1 -> qnorm2 b = 1 -> toRotationMatrix (qmul a b) = toRotationMatrix a *m toRotationMatrix b.
Proof. intros Ha Hb. rewrite !hom_rot_eq by (rewrite ?qmul_norm, ?Ha, ?Hb; auto; ring). apply hom_rot_mul. Qed.
Lemma heading_unit q : heading q -> qnorm2 q = 1.
Proof. intros (H1 & H2 & H3). unfold qnorm2. rewrite H1, H2. lra. Qed.
Lemma heading_fix q : heading q -> toRotationMatrix q *v g_ = g_ /\ mtr (toRotationMatrix q) *v g_ = g_.
Proof.
  destruct q as [w x y z]. intros (H1 & H2 & H3). cbn [qw qx qy qz] in *. subst. unfold toRotationMatrix, g_. cbn [qw qx qy qz]. split; ring3.
Qed.

(** ** the propagation *)
Definition heads (ip : imu_prop) : Prop := ip_use_ori ip = true /\ (ip_static ip = false \/ (SO3 (ip_Rib ip) /\ mtr (ip_Rib ip) *v g_ = g_)).
Lemma calib_turn q ip m : heading q -> qnorm2 (i_q m) = 1 -> ip_use_ori ip = true -> SO3 (ip_Rib ip) -> mtr (ip_Rib ip) *v g_ = g_ -> calib_sample (turn_ip q ip) (turn_imu q m) = calib_sample ip m.
Proof.
  intros Hq Hm Hu Hs Hg. destruct (heading_fix q Hq) as [_ HgR]. pose proof (thm_quat_unit q (heading_unit q Hq)) as HR. unfold calib_sample. cbn [ip_Rib ip_t ip_use_ori turn_ip i_w i_a i_q turn_imu]. rewrite Hu.
  rewrite qmul_rot by (auto using heading_unit). f_equal. set (a := _ -v _). set (B := ip_Rib ip) in *. set (R := toRotationMatrix q) in *. set (M := toRotationMatrix (i_q m)).
  assert (SO3 M) as HM by (apply thm_quat_unit; exact Hm).
  rewrite !mv_add_r. rewrite !SO3_l by (repeat apply SO3_mul; auto). f_equal.
  transitivity (mtr M *v (mtr R *v (mtr B *v g_))); [generalize M, R, B, g_; clear; intros [] [] [] []; ring3|]. rewrite Hg, HgR. rewrite <- Hg at 1. generalize M, B, g_; clear; intros [] [] []; ring3.
Qed.
Lemma InitImuBias_turn q ip : heading q -> Forall (fun m => qnorm2 (i_q m) = 1) (ip_queue ip) -> heads ip -> InitImuBias (turn_ip q ip) = rmap (turn_ip q) (InitImuBias ip).
Proof.
  intros Hq HF [Hu Hs]. unfold InitImuBias. cbn [ip_static turn_ip ip_vec ip_init_size ip_queue]. destruct (ip_static ip); cbn [negb]; [|reflexivity].
  destruct Hs as [|[Hs Hg]]; [discriminate|]. destruct (size_lt _ _).
  - destruct (ip_queue ip) as [|m l]; [reflexivity|]. cbn [map]. inversion HF; subst. rewrite calib_turn by auto. reflexivity.
  - destruct (check _ _); reflexivity.
Qed.
Lemma set_err_turn q ip e : set_err (turn_ip q ip) e = turn_ip q (set_err ip e). Proof. reflexivity. Qed.
Lemma Propagate_turned er q K ip s t0 : heading q -> wfp K s -> stprop s = Some t0 -> ip_err ip = er ->
  Propagate (turn_ip q ip) (turned er (toRotationMatrix q) s) = rmap (fun '(b, ip', s') => (b, turn_ip q ip', turned er (toRotationMatrix q) s')) (Propagate ip s).
Proof.
  intros Hq W Ht E. pose proof (thm_quat_unit q (heading_unit q Hq)) as HR. destruct (heading_fix q Hq) as [Hg _]. destruct er.
  - apply (Propagate_turn _ HR Hg q K ip s t0 W Ht E).
  - set (R := toRotationMatrix q) in *. set (ip' := set_err ip LeftInvariant). set (s' := in_left K s). pose proof (in_left_wfp K s W) as W'. fold s' in W'.
    assert (ip = set_err ip' RightInvariant) as Ei by (unfold ip'; destruct ip; cbn in *; subst; reflexivity). rewrite Ei. clear Ei. rewrite <- (in_left_right K s W). fold s'.
    rewrite <- (in_right_turn K R s' HR W'). rewrite <- set_err_turn.
    assert (stprop s' = Some t0) as Ht' by exact Ht.
    rewrite (Propagate_conv K ip' s' t0 W' Ht' eq_refl). rewrite (Propagate_conv K (turn_ip q ip') (turnL R s') t0 (turnL_wfp K R s' HR W') Ht' eq_refl).
    fold R. rewrite (Propagate_turn R HR Hg q K ip' s' t0 W' Ht' eq_refl).
    destruct (Propagate ip' s') as [[[b ip1] s1]|] eqn:EP; cbn [rmap]; [|reflexivity]. rewrite set_err_turn.
    assert (wfp K s1) as W1.
    { unfold Propagate in EP. destruct (ip_queue ip') as [|x l]; [injection EP as <- <- <-; exact W'|]. destruct (ip_prev ip') as [m|]; [|discriminate]. cbn [of_opt bind] in EP.
      pose proof (step_eq K (set_prev (set_queue ip' l) x) m s' t0 W' Ht') as E1. cbv zeta in E1. rewrite E1 in EP. cbn [bind] in EP. injection EP as <- <- <-. eapply (step_wfp K _ m s' t0 _ W' Ht' E1). }
    rewrite (in_right_turn K R s1 HR W1). reflexivity.
Qed.

(** ** the estimator *)
Definition turn_est (er : error_type) (q : quat) (e : est) (L : list log_line) : est :=
  let T := turned er (toRotationMatrix q) in
  mkEst (e_err e) (if e_enabled e then T (e_state e) else e_state e) (e_heap e) (option_map (turn_ip q) (e_prop e)) (e_corrs e) (e_enabled e)
    (map T (e_out e)) (e_logger e) (map T (e_logq e)) (option_map T (e_pending e)) (e_lastpub e) (e_rate e) L (e_names e)
    (e_count e) (e_files e) (e_opened e) (e_rot_cov e) (e_vel_cov e) (e_pos_cov e) (e_slip e).
Definition turny (er : error_type) (e : est) : Prop := (forall ip, e_prop e = Some ip -> ip_err ip = er /\ heads ip) /\ Forall (fun c => c_err c = er) (e_corrs e).
Lemma turny_step er e o e' : turny er e -> est_step e o = Ok e' -> turny er e'.
Proof.
  intros [H1 H2] E. destruct (step_fixed _ _ _ E) as (_ & F1 & F2). split.
  - intros ip Hip. rewrite Hip in F2. destruct (e_prop e) as [ip0|]; [|discriminate]. cbn [option_map] in F2.
    assert (ip_fixed ip = ip_fixed ip0) as F by congruence. destruct (H1 ip0 eq_refl) as [A B]. unfold ip_fixed in F. destruct ip, ip0; cbn in *. unfold heads in *. cbn in *. injection F; intros; subst. auto.
  - revert F1. generalize (e_corrs e'). intros cs'. revert H2. generalize (e_corrs e). intros cs. revert cs'.
    induction cs as [|c cs IH]; intros [|c' cs'] H2 F1; try discriminate; constructor; cbn [map] in F1; inversion H2; subst.
    + assert (c_fixed c' = c_fixed c) as F by congruence. destruct c, c'; cbn in *; try discriminate; congruence.
    + apply IH; auto. congruence.
Qed.
Ltac t_cbn := cbn [e_err e_state e_heap e_prop option_map e_corrs e_enabled e_out e_logger e_logq e_pending e_lastpub e_rate e_lines e_names e_count e_files e_opened e_rot_cov e_vel_cov e_pos_cov e_slip].

Lemma line_turn er q n f t x : heading q -> wfp (2 + n) x -> let R := toRotationMatrix q in
  exists M p v bv, get_world_rotation x = Ok M /\ get_world_position x = Ok p /\ get_world_velocity x = Ok v /\ get_body_velocity x = Ok bv /\
  get_world_rotation (turned er R x) = Ok (R *m M) /\ get_world_position (turned er R x) = Ok (R *v p) /\ get_world_velocity (turned er R x) = Ok (R *v v) /\ get_body_velocity (turned er R x) = Ok bv /\
  turned_line R (mkLine f t p (quat_of_mat M) v bv) (mkLine f t (R *v p) (quat_of_mat (R *m M)) (R *v v) bv).
Proof.
  intros Hq W R. pose proof (thm_quat_unit q (heading_unit q Hq)) as HR. fold R in HR. pose proof (turned_wfp er _ R x HR W) as W'.
  assert (forall y, wfp (2 + n) y -> get_velocity y = Ok (col (sX y) 0) /\ get_position y = Ok (col (sX y) 1)) as HG.
  { intros y [[WX _ _ _ _] HK _ _ _]. unfold get_velocity, get_position. rewrite !cgetV3_ok; auto; rewrite ?(sek_rows _ _ WX), ?(sek_cols _ _ WX); lia. }
  destruct (HG _ W) as [V1 V2]. destruct (HG _ W') as [V1' V2'].
  unfold get_world_rotation, get_world_position, get_world_velocity, get_body_velocity. rewrite (wp_type _ _ W), (wp_type _ _ W'), V1, V2, V1', V2', (get_rotation_ok _ _ W), (get_rotation_ok _ _ W'). cbn [bind].
  change (sX (turned er R x)) with (turn_X R (sX x)). assert (SEK (2 + n) (sX x)) as HX by apply W. rewrite (turn_rot (2 + n)), !(turn_col (2 + n)) by (auto; lia).
  do 4 eexists. do 7 (split; [reflexivity|]). split.
  - f_equal. rewrite <- (SO3_l R (col (sX x) 0) HR) at 2. destruct R, (rot (sX x)), (col (sX x) 0). ring3.
  - unfold turned_line. cbn. do 5 (split; [reflexivity|]). destruct (thm_quat_of_mat (rot (sX x))) as [_ ->]; [apply HX|]. destruct (thm_quat_of_mat (R *m rot (sX x))) as [_ ->]; [apply SO3_mul; [exact HR|apply HX]|reflexivity].
Qed.
Lemma turn_cov_start er R r v p bg ba : SO3 R -> turn_cov er R (bdiag 5 (init_blocks r v p bg ba)) = bdiag 5 (init_blocks r v p bg ba).
Proof.
  intros HR. destruct er; [reflexivity|]. cbn [turn_cov]. change (nr (bdiag 5 (init_blocks r v p bg ba))) with (9 + 3 * 2)%nat. rewrite turn_blocks_lead, AdB_lead.
  change (3 + 2)%nat with 5%nat. rewrite bdiag_T, !bdiag_mult. apply bdiag_ext. intros i Hi. destruct i as [|[|[|[|[|i]]]]]; try lia; cbn [Nat.leb init_blocks]; try apply scl_conj; auto; destruct bg, ba; ring3.
Qed.

Lemma step_turn er q fut e o L : heading q -> est_ok (op_imu o ++ fut) e -> allowed e o -> turny er e -> Forall2 (turned_line (toRotationMatrix q)) (e_lines e) L ->
  match est_step e o with
  | Ok e1 => exists L1, est_step (turn_est er q e L) (turn_op q o) = Ok (turn_est er q e1 L1) /\ Forall2 (turned_line (toRotationMatrix q)) (e_lines e1) L1
  | Fail x => est_step (turn_est er q e L) (turn_op q o) = Fail x
  end.
Proof.
  intros Hq HE HA [HL1 HL2] HF. pose proof (thm_quat_unit q (heading_unit q Hq)) as HR. set (R := toRotationMatrix q) in *.
  pose proof HE as [(ip & Hip & HN & HCal & HS & HRun) Hno Hle Hsl Hcov Hon Hoff Hpub]. destruct (HL1 ip Hip) as [Her Hh].
  destruct o; cbn [op_imu app turn_op] in *.
  - cbn [est_step]. cbn [e_prop turn_est]. rewrite Hip. cbn [option_map of_opt bind]. exists L. split; [|exact HF]. f_equal. unfold turn_est, e_set_prop, e_set. t_cbn. f_equal. unfold set_queue, turn_ip. cbn. rewrite map_app. reflexivity.
  - cbn [est_step]. exists L. split; [reflexivity|exact HF].
  - cbn [est_step]. exists L. split; [reflexivity|exact HF].
  - cbn [est_step]. unfold InitBias. cbn [e_prop turn_est]. rewrite Hip. cbn [option_map of_opt bind].
    rewrite (InitImuBias_turn q ip Hq) by (auto; destruct HS as [HS _]; apply Forall_app in HS; apply HS). destruct (InitImuBias ip) as [ip'|]; cbn [rmap bind]; [|reflexivity]. exists L. split; [reflexivity|exact HF].
  - (* InitState *) destruct HA as [He _]. destruct (Hoff He) as [B B2]. cbn [est_step].
    assert (forall m, hd_error (ip_queue ip) = Some m -> qnorm2 (i_q m) = 1) as Hun.
    { intros m Hm. destruct (ip_queue ip) as [|x l0]; [discriminate|]. injection Hm as ->. destruct HS as [HS _]. cbn in HS. inversion HS; auto. }
    rewrite (InitState_eq e l ip Hip B) by (intros m Hm; apply unit_rot; exact (Hun m Hm)).
    rewrite (InitState_eq (turn_est er q e L) l (turn_ip q ip)); [|cbn [e_prop turn_est]; rewrite Hip; reflexivity|cbn [e_state turn_est]; rewrite He; exact B|].
    2:{ intros m Hm. apply unit_rot. cbn [ip_queue turn_ip] in Hm. destruct (ip_queue ip) as [|x l0]; [discriminate|]. cbn in Hm. injection Hm as <-. unfold unit_q. cbn [i_q turn_imu]. rewrite qmul_norm, (heading_unit q Hq), (Hun x eq_refl). ring. }
    cbn [ip_queue turn_ip e_state turn_est e_heap e_corrs e_enabled e_out e_logq]. rewrite He. destruct (ip_queue ip) as [|m l0] eqn:Eq; cbn [map].
    + exists L. split; [|exact HF]. unfold turn_est, e_set. t_cbn. reflexivity.
    + pose proof (Hun m eq_refl) as Hm. assert (wfp 2 (init_state 2 ip m (e_state e))) as W0 by (apply init_state_wfp; [apply blank_wfp; exact B|apply unit_rot; exact Hm]).
      assert (init_state 2 (turn_ip q ip) (turn_imu q m) (e_state e) = turnL R (init_state 2 ip m (e_state e))) as ->.
      { rewrite turnL_set_X. unfold init_state. unfold set_X. cbn [sX stype sTheta sP scmap st stprop sQc sbav sen sslip]. cbn [ip_bg0 ip_ba0 ip_gyro_bias_cov ip_accel_bias_cov ip_enable turn_ip i_t i_w turn_imu]. f_equal.
        rewrite (turn_X_sek 2) by (apply (wp_wf _ _ W0)). rewrite rot_aff. unfold init_rot. cbn [ip_use_ori turn_ip i_q turn_imu]. destruct Hh as [-> _]. rewrite qmul_rot by (auto using heading_unit). apply aff_ext. intros k Hk. rewrite col_aff by auto.
        rewrite (bl_X _ B). destruct k as [|[|k]]; [| |lia]; cbn [Nat.eqb].
        - rewrite (proj2 eye_rot_col) by lia. ring3.
        - ring3. }
      destruct (spin_all_turn R HR 2 (e_corrs e) (init_state 2 ip m (e_state e)) l W0) as [-> SW].
      destruct (spin_all (e_corrs e) (init_state 2 ip m (e_state e)) l) as [[cs s]|]; cbn [rmap bind]; [|reflexivity]. cbv zeta.
      exists L. split; [|exact HF]. f_equal.
      assert (start_state (turn_est er q e L) (turn_ip q ip) (turnL R s) = turned er R (start_state e ip s)) as ->.
      { unfold start_state, turned. cbn [sX sP set_P set_X]. rewrite turn_cov_start by auto. reflexivity. }
      unfold turn_est, e_set. t_cbn. rewrite map_app. reflexivity.
  - (* RunOnce *) cbn [allowed] in HA. cbn [est_step]. destruct (HRun HA) as (tp & t & m & R1 & R2 & R3 & R4). cbn [map nondec] in R4. destruct R4 as [R4 R5].
    pose proof (Hon HA) as HC. pose proof HC as (ids & C & _). pose proof (contacts_wfp _ _ _ _ C) as W.
    unfold RunOnce. cbn [e_prop turn_est]. rewrite Hip. cbn [option_map of_opt bind e_state turn_est]. rewrite HA. unfold R. rewrite (Propagate_turned er q _ ip _ tp Hq W R1 Her). fold R.
    destruct (prop_step _ (e_heap e) ip (e_state e) tp m HC R1 HN R3 R4) as (b & ip' & s1 & E & C1 & EQ). rewrite E. cbn [bind rmap].
    assert (exists tp1 t1, stprop s1 = Some tp1 /\ st s1 = Some t1) as (tp1 & t1 & T1 & T2).
    { destruct (ip_queue ip) as [|x l0] eqn:Eq.
      - destruct EQ as (_ & -> & ->). eauto.
      - destruct EQ as (_ & -> & E1 & E2). eauto. }
    cbn [e_corrs e_heap turn_est].
    rewrite (correct_all_turn R HR er (e_corrs e) (e_heap e) s1 l tp1 t1); auto.
    destruct (correct_all (e_corrs e) (e_heap e) s1 l) as [[[[b2 cs] h] s2]|]; cbn [rmap bind]; [|reflexivity].
    cbn [e_slip turn_est]. rewrite Hsl. cbn [bind e_logger e_out e_logq e_enabled turn_est].
    destruct (b || b2); cbn [rmap]; (exists L; split; [|exact HF]); f_equal; unfold turn_est, e_set; t_cbn; rewrite HA; [|reflexivity].
    destruct (e_logger e); rewrite ?map_app; reflexivity.
  - (* Clear *) cbn [est_step]. unfold Clear. cbn [e_prop turn_est]. rewrite Hip. cbn [option_map of_opt bind].
    assert (RS_clear (e_state (turn_est er q e L)) = RS_clear (e_state e)) as ->.
    { cbn [e_state turn_est]. destruct (e_enabled e); reflexivity. }
    cbn [e_logger e_set turn_est e_names e_count]. destruct (e_logger e); [destruct (e_names e) as [pose vel] eqn:En|]; (exists L; split; [|exact HF]); f_equal;
      unfold e_reopen, turn_est, e_set; t_cbn; rewrite ?En; reflexivity.
  - cbn [est_step]. exists L. split; [|exact HF]. f_equal. unfold turn_est, e_set_out, e_set. t_cbn. destruct (e_out e); reflexivity.
  - cbn [est_step]. exists L. unfold LogPop. cbn [e_pending turn_est e_logq]. destruct (e_pending e) as [x|] eqn:Ep; cbn [option_map]; [auto|]. destruct (e_logq e) eqn:El; cbn [map]; [auto|]. split; [|exact HF]. f_equal.
  - cbn [est_step]. unfold waiting in Hpub. apply Forall_app in Hpub. destruct Hpub as [_ Hpub]. apply Forall_app in Hpub. destruct Hpub as [_ Hpub].
    unfold LogWrite. cbn [e_pending turn_est]. destruct (e_pending e) as [x|] eqn:Ep; cbn [option_map]; [|exists L; auto].
    apply Forall_inv in Hpub. destruct Hpub as (n & t & W & _ & Et).
    change (get_time (turned er (toRotationMatrix q) x)) with (get_time x). unfold get_time. rewrite Et. cbn [of_opt bind e_logger e_rate e_lastpub turn_est].
    destruct (e_logger e && log_due (e_rate e) (t - e_lastpub e)); [|exists L; auto].
    destruct (line_turn er q n (e_files e) t x Hq W) as (M & p & v & bv & A1 & A2 & A3 & A4 & A5 & A6 & A7 & A8 & A9). rewrite A1, A2, A3, A4, A5, A6, A7, A8. cbn [bind].
    eexists. split; [reflexivity|]. cbn [e_lines e_log]. apply Forall2_app; [exact HF|]. constructor; [exact A9|constructor].
Qed.

(** ** histories *)
Lemma turn_allowed er q e L o : allowed e o -> allowed (turn_est er q e L) (turn_op q o).
Proof.
  destruct o; cbn [allowed turn_op]; auto; unfold BiasInitialized; cbn [e_prop turn_est e_enabled]; intros [H1 H2]; (split; [exact H1|]); destruct (e_prop e); cbn in *; auto.
Qed.
Lemma run_turn er q : heading q -> forall os e L, est_ok (imus os) e -> protocol e os -> turny er e -> Forall2 (turned_line (toRotationMatrix q)) (e_lines e) L ->
  protocol (turn_est er q e L) (map (turn_op q) os) /\
  published any_op (turn_est er q e L) (map (turn_op q) os) = map (turned er (toRotationMatrix q)) (published any_op e os) /\
  match est_run e os with
  | Ok a => exists L1, est_run (turn_est er q e L) (map (turn_op q) os) = Ok (turn_est er q a L1) /\ Forall2 (turned_line (toRotationMatrix q)) (e_lines a) L1
  | Fail x => est_run (turn_est er q e L) (map (turn_op q) os) = Fail x
  end.
Proof.
  intros Hq. induction os as [|o os IH]; intros e L HE HP HT HF.
  { cbn. split; [exact I|]. split; [reflexivity|]. exists L. auto. }
  rewrite imus_cons in HE. destruct HP as [HA HP]. pose proof (step_turn er q (imus os) e o L Hq HE HA HT HF) as ES.
  pose proof (turn_allowed er q e L o HA) as HA'. cbn [published protocol est_run foldM map].
  destruct (step_safe _ _ _ HE HA) as [(e1 & E1 & HE1)|[E1 _]]; rewrite E1 in *; cbn [bind].
  - destruct ES as (L1 & ES & HF1). rewrite ES. cbn [bind]. destruct (IH e1 L1 HE1 (HP _ eq_refl) (turny_step _ _ _ _ HT E1) HF1) as (I1 & I2 & I3).
    split; [split; [exact HA'|intros x [= <-]; exact I1]|]. split; [|exact I3].
    rewrite map_app, I2. f_equal. cbn [any_op turn_est e_out]. rewrite map_length, skipn_map. reflexivity.
  - rewrite ES. split; [split; [exact HA'|discriminate]|]. split; reflexivity.
Qed.
Lemma turny_build f : uses_heading f -> turny (f_err f) (build f).
Proof.
  intros [Hu Hs]. rewrite build_eq. split.
  - intros ip [= <-]. split; [reflexivity|]. split; [exact Hu|]. cbn [ip_static ip_Rib ImuPropagation]. destruct Hs as [Hs|Hs]; [left; exact Hs|right].
    split; [apply thm_quat_unit, heading_unit, Hs|apply heading_fix, Hs].
  - cbn [e_corrs e_set_corrs e_set]. apply Forall_map. apply Forall_forall. intros [g|g] _; reflexivity.
Qed.
Lemma turn_build er q f : turn_est er q (build f) [] = build f.
Proof. rewrite build_eq. reflexivity. Qed.
Lemma turn_stream q l : heading q -> imu_stream l -> imu_stream (map (turn_imu q) l).
Proof.
  intros Hq [H1 H2]. split.
  - apply Forall_map. revert H1. apply Forall_impl. intros m Hm. cbn [i_q turn_imu]. rewrite qmul_norm, (heading_unit q Hq), Hm. ring.
  - rewrite map_map. exact H2.
Qed.
Lemma turn_imus q os : imus (map (turn_op q) os) = map (turn_imu q) (imus os).
Proof. induction os as [|o os IH]; [reflexivity|]. cbn [map]. rewrite !imus_cons, map_app, IH. destruct o; reflexivity. Qed.
Lemma thm_turn f q os : config_ok f -> imu_stream (imus os) -> protocol (build f) os -> uses_heading f -> heading q ->
  let R := toRotationMatrix q in let os' := map (turn_op q) os in
  imu_stream (imus os') /\ protocol (build f) os' /\
  published any_op (build f) os' = map (turned (f_err f) R) (published any_op (build f) os) /\
  match est_run (build f) os with
  | Ok a => exists b, est_run (build f) os' = Ok b /\ turned_output (f_err f) R a b
  | Fail x => est_run (build f) os' = Fail x
  end.
Proof.
  intros HC HS HP HU Hq R os'. split; [unfold os'; rewrite turn_imus; apply turn_stream; auto|].
  assert (e_lines (build f) = []) as EL by (rewrite build_eq; reflexivity).
  destruct (run_turn (f_err f) q Hq os (build f) [] (build_ok f _ HC HS) HP (turny_build f HU)) as (A & B & C); [rewrite EL; constructor|].
  rewrite turn_build in A, B, C. split; [exact A|]. split; [exact B|]. destruct (est_run (build f) os) as [a|]; [|exact C]. destruct C as (L1 & C & HF). eexists. split; [exact C|].
  constructor; auto.
Qed.
