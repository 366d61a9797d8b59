(** Proofs: C26, the estimator never fails. *)
From Coq Require Import Reals ZArith List Bool Arith Lia Lra.
From Verif Require Import Res Vec3 Mat MatInv Psd Spec LieGroup LieSO3 LieSEK RobotState StateProofs Inekf SpecFilter InekfThms Blk Imu Propagation SpecProp
  PropagationThms ImuRest ImuThms ImuNeg Queue VelCorr LegCorr SpecCorr VelThms PsdBlk LegThms LegUpd LegHist Estimator SpecEst EstInv.
Import ListNotations.
Local Open Scope R_scope.

(** the state before initialisation *)
Record blank (s : rstate) : Prop := {
  bl_type : stype s = WorldCentric; bl_X : sX s = meye 5; bl_T : sTheta s = mO 6 1; bl_P : sP s = meye 15;
  bl_map : scmap s = repeat None 5; bl_Q : sQc s = mO 15 15 }.
Lemma eye_sek K : meye (3 + K) = sek K mid (fun _ => vzero).
Proof.
  apply mat_ext; [reflexivity|reflexivity|]. intros i j Hi Hj. change (i < 3 + K)%nat in Hi. change (j < 3 + K)%nat in Hj.
  rewrite ent_eye by lia. destruct (Nat.ltb_spec i 3) as [H|H].
  - destruct (Nat.ltb_spec j 3) as [H0|H0].
    + rewrite ent_aff_rot by lia. rewrite mget_id by lia. reflexivity.
    + pose proof (ent_aff_col K mid (fun _ => vzero) 1 i (j - 3)) as E. replace (3 + (j - 3))%nat with j in E by lia. rewrite E by lia.
      destruct (Nat.eqb_spec i j); [lia|]. destruct i as [|[|[|i]]]; try lia; reflexivity.
  - rewrite ent_aff_bot by lia. reflexivity.
Qed.
Lemma blank_wfp s : blank s -> wfp 2 s.
Proof.
  intros [B1 B2 B3 B4 B5 B6]. split; auto; try (rewrite B6; reflexivity). split; rewrite ?B2, ?B3, ?B4; try reflexivity.
  change 5%nat with (3 + 2)%nat. rewrite eye_sek. apply SEK_sek, SO3_id.
Qed.

(** ** initialisation *)
Definition init_blocks (r v p : R) (bg ba : M3) (b : nat) : M3 :=
  match b with 0 => r *ms mid | 1 => v *ms mid | 2 => p *ms mid | 3 => bg | _ => ba end%nat.
Lemma put_blk n f i j r c M : r = (3 * i)%nat -> c = (3 * j)%nat -> (i < n)%nat -> (j < n)%nat -> put (blk n f) r c (ofM3 M) = blk n (bupd f i j M).
Proof.
  intros Hr Hc Hi Hj. pose proof (putM_blk n f r c i j M Hr Hc Hi Hj) as E. unfold putM in E. rewrite cput_ok in E by (mdim; lia). congruence.
Qed.
Lemma init_cov_ok r v p bg ba :
  put (put (put (put (put (meye 15) 9 9 (ofM3 bg)) 12 12 (ofM3 ba)) 0 0 (ofM3 (r *ms mid))) 3 3 (ofM3 (v *ms mid))) 6 6 (ofM3 (p *ms mid)) = bdiag 5 (init_blocks r v p bg ba).
Proof.
  change 15%nat with (3 * 5)%nat. rewrite blk_eye.
  rewrite (put_blk 5 _ 3 3), (put_blk 5 _ 4 4), (put_blk 5 _ 0 0), (put_blk 5 _ 1 1), (put_blk 5 _ 2 2) by lia.
  apply blk_ext. intros i j Hi Hj. unfold bupd, init_blocks.
  destruct i as [|[|[|[|[|i]]]]]; try lia; destruct j as [|[|[|[|[|j]]]]]; try lia; reflexivity.
Qed.
Lemma init_cov_psd r v p bg ba : 0 <= r -> 0 <= v -> 0 <= p -> psd (ofM3 bg) -> psd (ofM3 ba) -> psd (bdiag 5 (init_blocks r v p bg ba)).
Proof.
  intros. apply psd_bdiag. intros b Hb. destruct b as [|[|[|[|b]]]]; cbn [init_blocks]; auto; apply psd_std; auto.
Qed.
Definition start_state (e : est) (ip : imu_prop) (s : rstate) : rstate :=
  set_P s (bdiag 5 (init_blocks (e_rot_cov e) (e_vel_cov e) (e_pos_cov e) (ip_gyro_bias_cov ip) (ip_accel_bias_cov ip))).
Lemma InitState_eq e l ip : e_prop e = Some ip -> blank (e_state e) ->
  (forall m, hd_error (ip_queue ip) = Some m -> SO3 (init_rot ip m)) ->
  InitState e l = match ip_queue ip with
    | [] => Ok (e_set e (e_state e) (e_heap e) (Some ip) (deliver_all (e_corrs e) l) (e_enabled e) (e_out e) (e_logq e))
    | m :: q =>
      let* '(cs, s) := spin_all (e_corrs e) (init_state 2 ip m (e_state e)) l in
      let s := start_state e ip s in
      Ok (e_set e s (e_heap e) (Some (set_prev (set_queue ip q) m)) cs true (e_out e ++ [s]) (e_logq e))
    end.
Proof.
  intros Hp B HR. unfold InitState. rewrite Hp. cbn [of_opt bind]. pose proof (blank_wfp _ B) as W.
  destruct (ip_queue ip) as [|m q] eqn:Eq.
  { unfold set_initial_state. rewrite Eq. reflexivity. }
  rewrite (set_initial_ok 2 ip _ m q W Eq). cbn [bind negb].
  set (s0 := init_state 2 ip m (e_state e)). assert (wfp 2 s0) as W0 by (apply init_state_wfp; auto; apply HR; reflexivity).
  destruct (spin_all (e_corrs e) s0 l) as [[cs s]|er] eqn:Es; [|reflexivity]. cbn [bind].
  destruct (spin_all_ok 2 (i_w m) (e_corrs e) s0 l W0 eq_refl) as (_ & H2 & _). destruct (H2 _ _ Es) as (_ & W1 & _ & _ & _ & HP & _).
  assert (sP s = put (put (meye 15) 9 9 (ofM3 (ip_gyro_bias_cov ip))) 12 12 (ofM3 (ip_accel_bias_cov ip))) as EP.
  { rewrite HP. unfold s0, init_state. cbn [sP]. rewrite (bl_P _ B). reflexivity. }
  unfold set_rotation_covariance, set_velocity_covariance, set_position_covariance, set_cov3. srs. rewrite EP.
  rewrite cput_ok by (mdim; lia). srs. rewrite cput_ok by (mdim; lia). srs. rewrite cput_ok by (mdim; lia). srs.
  rewrite init_cov_ok. reflexivity.
Qed.

(** ** the invariant; [fut]: the IMU samples still to be delivered *)
Definition cal_ok (ip : imu_prop) : Prop := ip_static ip = true -> (0 < ip_init_size ip)%Z.
Definition unit_q (m : imu) : Prop := qnorm2 (i_q m) = 1.
Definition waiting (e : est) : list rstate := e_out e ++ e_logq e ++ match e_pending e with Some s => [s] | None => [] end.
Definition running (fut : list imu) (ip : imu_prop) (s : rstate) : Prop :=
  exists tp t m, stprop s = Some tp /\ st s = Some t /\ ip_prev ip = Some m /\ nondec tp (map i_t (m :: ip_queue ip ++ fut)).
Record est_ok (fut : list imu) (e : est) : Prop := {
  ok_prop : exists ip, e_prop e = Some ip /\ noise_ok ip /\ cal_ok ip /\ imu_stream (ip_queue ip ++ fut) /\
    (e_enabled e = true -> running fut ip (e_state e));
  ok_noise : Forall corr_noise (e_corrs e);
  ok_legs : (n_leg (e_corrs e) <= 1)%nat;
  ok_slip : e_slip e = false;
  ok_cov : 0 <= e_rot_cov e /\ 0 <= e_vel_cov e /\ 0 <= e_pos_cov e;
  ok_on : e_enabled e = true -> core (leg_of (e_corrs e)) (e_heap e) (e_state e);
  ok_off : e_enabled e = false -> blank (e_state e) /\ forall c, leg_of (e_corrs e) = Some c -> forall id, lc_map c id = None;
  ok_pub : Forall sound (waiting e) }.

Lemma noise_queue ip q : noise_ok ip -> noise_ok (set_queue ip q). Proof. auto. Qed.
Lemma nondec_sorted t l : nondec t l -> sorted l.
Proof. destruct l; cbn; [auto|tauto]. Qed.
Lemma nondec_weak t t' l : t' <= t -> nondec t l -> nondec t' l.
Proof. destruct l; cbn; [auto|]. intros H [A B]. split; [lra|auto]. Qed.
Lemma nondec_tail t x l : nondec t (x :: l) -> nondec t l.
Proof. cbn. intros [A B]. eapply nondec_weak; eauto. Qed.
Lemma sorted_tail x l : sorted (x :: l) -> sorted l.
Proof. cbn. apply nondec_sorted. Qed.
Lemma stream_tail x l : imu_stream (x :: l) -> imu_stream l.
Proof. intros [A B]. split; [inversion A; auto|eapply sorted_tail; eauto]. Qed.
Lemma stream_drop q l : imu_stream (q ++ l) -> imu_stream l.
Proof. induction q; cbn [app]; auto. intros H. apply IHq. eapply stream_tail; eauto. Qed.
Lemma nondec_drop t q l : nondec t (q ++ l) -> nondec t l.
Proof. induction q; cbn [app]; auto. intros H. apply IHq. eapply nondec_tail; eauto. Qed.

Lemma contacts_none h s c : wfp 2 s -> scmap s = repeat None 5 -> (forall id, lc_map c id = None) -> tracks c h s [].
Proof.
  intros W E H. split; cbn [length]; auto.
  - constructor.
  - intros k a H'. destruct k; discriminate.
  - intros id a H'. rewrite H in H'. discriminate.
  - intros i j a H'. rewrite H in H'. discriminate.
  - intros a [].
Qed.
Lemma leg_of_push i v l : forall cs, n_leg (upd_nth cs i (fun c => push_corr c v l)) = n_leg cs /\
  (Forall corr_noise cs -> Forall corr_noise (upd_nth cs i (fun c => push_corr c v l))) /\
  (leg_of (upd_nth cs i (fun c => push_corr c v l)) = leg_of cs \/
   exists c q, leg_of cs = Some c /\ leg_of (upd_nth cs i (fun c => push_corr c v l)) = Some (lc_set_queue c q)).
Proof.
  induction i as [|i IH]; intros [|c cs]; cbn [upd_nth]; auto.
  - destruct c as [c|c]; cbn [push_corr leg_of].
    + split; [reflexivity|]. split; [|auto]. intros H; inversion H; subst; constructor; auto.
    + split; [reflexivity|]. split; [|right; eauto]. intros H; inversion H; subst; constructor; auto.
  - specialize (IH cs) as (A & B & C). unfold n_leg in *. cbn [filter]. split; [destruct (is_CLeg c); cbn; congruence|].
    split; [intros H; inversion H; subst; constructor; auto|]. destruct c; cbn [leg_of]; auto.
Qed.
Lemma leg_of_deliver : forall cs l, n_leg (deliver_all cs l) = n_leg cs /\
  (Forall corr_noise cs -> Forall corr_noise (deliver_all cs l)) /\
  (forall c', leg_of (deliver_all cs l) = Some c' -> exists c, leg_of cs = Some c /\ forall id, lc_map c' id = lc_map c id).
Proof.
  induction cs as [|c cs IH]; intros l; cbn [deliver_all]; [split; [reflexivity|]; split; [auto|discriminate]|].
  destruct (IH (tl_arr l)) as (A & B & C). unfold n_leg in *. destruct c as [c|c]; cbn [push_corr filter is_CLeg length leg_of].
  - split; [exact A|]. split; [intros H; inversion H; subst; constructor; auto|exact C].
  - split; [congruence|]. split; [intros H; inversion H; subst; constructor; auto|]. intros c' [= <-]. eexists. split; reflexivity.
Qed.
Lemma core_queue c q h s : core (Some c) h s -> core (Some (lc_set_queue c q)) h s.
Proof. intros (ids & C & P & N). exists ids. split; [apply tracks_queue; exact C|auto]. Qed.

Lemma unit_rot ip m : unit_q m -> SO3 (init_rot ip m).
Proof. intros H. unfold init_rot. destruct (ip_use_ori ip); [|apply SO3_id]. apply thm_quat_unit; exact H. Qed.

Lemma InitBias_ok fut ip : noise_ok ip -> cal_ok ip -> imu_stream (ip_queue ip ++ fut) ->
  exists ip', InitImuBias ip = Ok ip' /\ noise_ok ip' /\ cal_ok ip' /\ imu_stream (ip_queue ip' ++ fut).
Proof.
  intros HN HC HS. unfold InitImuBias. destruct (ip_static ip) eqn:Es; cbn [negb].
  2:{ eexists. split; [reflexivity|]. auto. }
  specialize (HC Es). unfold size_lt. destruct (Z.ltb_spec (ip_init_size ip) 0); [lia|].
  destruct (Z.ltb_spec (Z.of_nat (length (ip_vec ip))) (ip_init_size ip)).
  - destruct (ip_queue ip) as [|m q] eqn:Eq; eexists; (split; [reflexivity|]).
    + rewrite Eq. split; [exact HN|]. split; [intros _; exact HC|exact HS].
    + split; [exact HN|]. split; [intros _; exact HC|]. cbn. eapply stream_tail; exact HS.
  - destruct (Nat.eqb_spec (length (ip_vec ip)) 0); [lia|]. cbn [negb check bind]. eexists. split; [reflexivity|].
    split; [exact HN|]. split; [intros _; exact HC|exact HS].
Qed.
Definition op_imu (o : op) : list imu := match o with OImu m => [m] | _ => [] end.
Lemma imus_cons o os : imus (o :: os) = op_imu o ++ imus os.
Proof. destruct o; reflexivity. Qed.

Lemma sound_pub_core o h s t : core o h s -> st s = Some t -> sound s. Proof. apply core_sound. Qed.

Lemma step_safe fut e o : est_ok (op_imu o ++ fut) e -> allowed e o ->
  (exists e', est_step e o = Ok e' /\ est_ok fut e') \/
  (est_step e o = Fail Spin /\ exists l, o = OInitState l /\ ~ fed_all (e_corrs e) l).
Proof.
  intros [(ip & Hip & HN & HCal & HS & HRun) Hno Hle Hsl Hcov Hon Hoff Hpub] HA. destruct o; cbn [est_step op_imu app] in *.
  - (* OImu *) left. rewrite Hip. cbn [of_opt bind]. eexists. split; [reflexivity|]. split; auto.
    exists (set_queue ip (ip_queue ip ++ [m])). split; [reflexivity|]. split; [exact HN|]. split; [exact HCal|].
    cbn [ip_queue set_queue]. rewrite <- app_assoc. split; [exact HS|]. intros He. destruct (HRun He) as (tp & t & m0 & A1 & A2 & A3 & A4).
    exists tp, t, m0. split; [exact A1|]. split; [exact A2|]. split; [exact A3|]. cbn [ip_queue set_queue]. rewrite <- app_assoc. exact A4.
  - left. eexists. split; [reflexivity|]. destruct (leg_of_push i [m] [] (e_corrs e)) as (L1 & L2 & L3). split; cbn [e_prop e_corrs e_set_corrs e_set e_state e_heap e_enabled e_slip e_rot_cov e_vel_cov e_pos_cov]; eauto 10.
    + rewrite L1. exact Hle.
    + intros He. specialize (Hon He). destruct L3 as [->|(c & q & E1 & ->)]; [exact Hon|]. rewrite E1 in Hon. apply core_queue. exact Hon.
    + intros He. destruct (Hoff He) as [B1 B2]. split; [exact B1|]. intros c Hc. destruct L3 as [L3|(c0 & q & E1 & E2)].
      * rewrite L3 in Hc. auto.
      * rewrite E2 in Hc. injection Hc as <-. intros id. apply (B2 _ E1).
  - left. eexists. split; [reflexivity|]. destruct (leg_of_push i [] [m] (e_corrs e)) as (L1 & L2 & L3). split; cbn [e_prop e_corrs e_set_corrs e_set e_state e_heap e_enabled e_slip e_rot_cov e_vel_cov e_pos_cov]; eauto 10.
    + rewrite L1. exact Hle.
    + intros He. specialize (Hon He). destruct L3 as [->|(c & q & E1 & ->)]; [exact Hon|]. rewrite E1 in Hon. apply core_queue. exact Hon.
    + intros He. destruct (Hoff He) as [B1 B2]. split; [exact B1|]. intros c Hc. destruct L3 as [L3|(c0 & q & E1 & E2)].
      * rewrite L3 in Hc. auto.
      * rewrite E2 in Hc. injection Hc as <-. intros id. apply (B2 _ E1).
  - (* OInitBias *) left. destruct HA as [He _]. unfold InitBias. rewrite Hip. cbn [of_opt bind].
    destruct (InitBias_ok fut ip HN HCal HS) as (ip' & E & N' & C' & S'). rewrite E. cbn [bind]. eexists. split; [reflexivity|].
    split; cbn [e_prop e_corrs e_set_prop e_set e_state e_heap e_enabled e_slip e_rot_cov e_vel_cov e_pos_cov]; auto.
    exists ip'. split; [reflexivity|]. split; [exact N'|]. split; [exact C'|]. split; [exact S'|]. congruence.
  - (* OInitState *) destruct HA as [He _]. destruct (Hoff He) as [B B2].
    rewrite (InitState_eq e l ip Hip B).
    2:{ intros m Hm. apply unit_rot. destruct (ip_queue ip) as [|x q]; [discriminate|]. injection Hm as ->. destruct HS as [HS _]. cbn in HS. inversion HS; auto. }
    destruct (ip_queue ip) as [|m q] eqn:Eq.
    + left. eexists. split; [reflexivity|]. destruct (leg_of_deliver (e_corrs e) l) as (L1 & L2 & L3). split; cbn [e_prop e_corrs e_set e_state e_heap e_enabled e_slip e_rot_cov e_vel_cov e_pos_cov]; auto; try congruence.
      2:{ intros _. split; [exact B|]. intros c Hc. destruct (L3 _ Hc) as (c0 & E1 & E2). intros id. rewrite E2. apply (B2 _ E1). }
      exists ip. rewrite Eq. split; [auto|]. split; [auto|]. split; [auto|]. split; [auto|]. congruence.
    + set (s0 := init_state 2 ip m (e_state e)).
      assert (wfp 2 s0) as W0. { apply init_state_wfp; [apply blank_wfp; exact B|]. apply unit_rot. destruct HS as [HS _]. cbn in HS. inversion HS; auto. }
      destruct (spin_all_ok 2 (i_w m) (e_corrs e) s0 l W0 eq_refl) as (H1 & H2 & H3).
      destruct (spin_all (e_corrs e) s0 l) as [[cs s]|er] eqn:Es.
      2:{ right. assert (~ fed_all (e_corrs e) l) as NF by (intros F; destruct (H1 F) as (? & ? & E); congruence). rewrite (H3 NF). split; [reflexivity|eauto]. }
      left. destruct (H2 _ _ eq_refl) as (F & W1 & L1 & N1 & M1 & A1 & A2 & A3 & A4 & A5 & A6 & A7 & A8 & A9).
      cbn [bind]. eexists. split; [reflexivity|].
      assert (psd (sP (start_state e ip s))) as PS. { apply init_cov_psd; try apply Hcov; apply HN. }
      assert (wfp 2 (start_state e ip s)) as WS. { destruct W1 as [[WX WT1 WT2 WP1 WP2] HK HT HQ1 HQ2]. split; auto. split; auto. }
      assert (core (leg_of cs) (e_heap e) (start_state e ip s)) as CS.
      { assert (scmap s = repeat None 5) as EM by (rewrite A2; exact (bl_map _ B)).
        assert (contact_noise 2 (sQc s)) as EQ. { rewrite A3. unfold s0, init_state. cbn [sQc]. rewrite (bl_Q _ B). apply (ex_noise 2). }
        exists []. split; [|split; [exact PS|exact EQ]]. destruct (leg_of cs) as [c'|] eqn:Ec; cbn [contacts].
        - apply contacts_none; auto. destruct (M1 _ eq_refl) as (c & E1 & E2). intros id. rewrite E2. apply (B2 _ E1).
        - auto. }
      assert (exists t, st s = Some t) as [t Et]. { destruct A9 as [t [A9|[A9 _]]]; [eauto|]. rewrite A9. eexists. reflexivity. }
      assert (sound (start_state e ip s)) as SS by (eapply core_sound; [exact CS|exact Et]).
      split; cbn [e_prop e_corrs e_set e_state e_heap e_enabled e_slip e_rot_cov e_vel_cov e_pos_cov]; auto; try discriminate.
      * exists (set_prev (set_queue ip q) m). split; [reflexivity|]. split; [exact HN|]. split; [exact HCal|].
        cbn [ip_queue set_prev set_queue]. split; [eapply stream_tail; exact HS|]. intros _. exists (i_t m), t, m.
        split; [exact A5|]. split; [exact Et|]. split; [reflexivity|]. cbn [ip_queue set_prev set_queue]. destruct HS as [_ HS]. cbn in HS |- *. split; [lra|exact HS].
      * congruence.
      * unfold waiting in *. cbn [e_out e_logq e_pending e_set] in *. rewrite <- app_assoc. apply Forall_app in Hpub. destruct Hpub. apply Forall_app. split; auto. constructor; auto.
  - (* ORunOnce *) left. cbn [allowed] in HA. destruct (HRun HA) as (tp & t & m & R1 & R2 & R3 & R4). cbn [map nondec] in R4. destruct R4 as [R4 R5].
    unfold RunOnce. rewrite Hip. cbn [of_opt bind].
    destruct (prop_step _ (e_heap e) ip (e_state e) tp m (Hon HA) R1 HN R3 R4) as (b & ip' & s1 & E & C1 & EQ). rewrite E. cbn [bind].
    assert (exists tp1 t1 m1, stprop s1 = Some tp1 /\ st s1 = Some t1 /\ ip_prev ip' = Some m1 /\ nondec tp1 (map i_t (m1 :: ip_queue ip' ++ fut)) /\
       noise_ok ip' /\ cal_ok ip' /\ imu_stream (ip_queue ip' ++ fut)) as (tp1 & t1 & m1 & T1 & T2 & T3 & T4 & T5 & T6 & T7).
    { destruct (ip_queue ip) as [|x q] eqn:Eq.
      - destruct EQ as (_ & -> & ->). exists tp, t, m. rewrite Eq. cbn [map nondec]. auto 10.
      - destruct EQ as (_ & -> & E1 & E2). exists (i_t m), (i_t m), x. split; [exact E1|]. split; [exact E2|]. split; [reflexivity|].
        cbn [ip_queue set_prev set_queue]. split; [exact R5|]. split; [exact HN|]. split; [exact HCal|]. eapply stream_tail; exact HS. }
    destruct (correct_all_ok (e_corrs e) None (e_heap e) s1 l tp1 t1) as (b2 & cs' & h' & s' & t' & E2 & L2 & N2 & C2 & T8 & T9); auto.
    { cbn. lia. }
    rewrite E2. cbn [bind]. rewrite Hsl.
    assert (sound s') as SS by (eapply core_sound; eauto).
    assert (forall out logq, Forall sound (waiting (e_set e s' h' (Some ip') cs' (e_enabled e) out logq)) -> est_ok fut (e_set e s' h' (Some ip') cs' (e_enabled e) out logq)) as HG.
    { intros out logq HW. split; cbn [e_prop e_corrs e_set e_state e_heap e_enabled e_slip e_rot_cov e_vel_cov e_pos_cov]; auto; try congruence.
      exists ip'. split; [reflexivity|]. split; [exact T5|]. split; [exact T6|]. split; [exact T7|]. intros _. exists tp1, t', m1. auto. }
    unfold waiting in *. apply Forall_app in Hpub. destruct Hpub as [P1 P2]. apply Forall_app in P2. destruct P2 as [P2 P3].
    destruct (b || b2); cbn [bind]; eexists; (split; [reflexivity|]); apply HG; cbn [e_out e_logq e_pending e_set].
    + apply Forall_app. split; [apply Forall_app; auto|]. apply Forall_app. split; [|exact P3]. destruct (e_logger e); auto. apply Forall_app; auto.
    + apply Forall_app. split; [auto|]. apply Forall_app. auto.
  - (* OClear *) left. unfold Clear. rewrite Hip. cbn [of_opt bind]. cbn [e_logger e_set e_names e_count].
    assert (blank (RS_clear (e_state e)) /\ forall c, leg_of (map corr_clear (e_corrs e)) = Some c -> forall id, lc_map c id = None) as [B1 B2].
    { split.
      - assert (stype (e_state e) = WorldCentric) as ET.
        { destruct (e_enabled e) eqn:He; [|apply (Hoff eq_refl)]. destruct (Hon eq_refl) as (ids & C & _). apply (contacts_wfp _ _ _ _ C). }
        split; cbn; auto.
      - intros c. generalize (e_corrs e). intros cs. induction cs as [|[x|x] cs IH]; cbn; try discriminate; auto. intros [= <-]. reflexivity. }
    assert (n_leg (map corr_clear (e_corrs e)) = n_leg (e_corrs e)) as L1.
    { generalize (e_corrs e). intros cs. unfold n_leg. induction cs as [|[x|x] cs IH]; cbn; auto. }
    assert (Forall corr_noise (map corr_clear (e_corrs e))) as N1.
    { apply Forall_map. eapply Forall_impl; [|exact Hno]. intros [x|x]; auto. }
    assert (Forall sound (match e_pending e with Some s => [s] | None => [] end)) as P3.
    { unfold waiting in Hpub. apply Forall_app in Hpub. destruct Hpub as [_ Hpub]. apply Forall_app in Hpub. apply Hpub. }
    assert (exists ip0, Some (IP_clear ip) = Some ip0 /\ noise_ok ip0 /\ cal_ok ip0 /\ imu_stream (ip_queue ip0 ++ fut)) as (ip0 & I1 & I2 & I3 & I4).
    { eexists. split; [reflexivity|]. split; [exact HN|]. split; [exact HCal|]. cbn. eapply stream_drop; exact HS. }
    set (e1 := e_set e (RS_clear (e_state e)) (e_heap e) (Some (IP_clear ip)) (map corr_clear (e_corrs e)) false [] []).
    assert (est_ok fut e1) as H1.
    { constructor; unfold e1, waiting; cbn [e_prop e_corrs e_set e_state e_heap e_enabled e_slip e_rot_cov e_vel_cov e_pos_cov e_out e_logq e_pending app]; try discriminate; auto.
      - exists ip0. split; [exact I1|]. split; [exact I2|]. split; [exact I3|]. split; [exact I4|]. discriminate.
      - lia. }
    assert (forall n f, est_ok fut (e_reopen e1 n f)) as H2 by (intros n f; destruct H1; constructor; auto).
    destruct (e_logger e); [destruct (e_names e) as [pose vel]|]; eexists; (split; [reflexivity|]); auto.
  - (* OPopOut *) left. eexists. split; [reflexivity|]. split; cbn [e_prop e_corrs e_set_out e_set e_state e_heap e_enabled e_slip e_rot_cov e_vel_cov e_pos_cov]; eauto 10.
    unfold waiting in *. cbn [e_out e_logq e_pending e_set]. apply Forall_app in Hpub. destruct Hpub as [P1 P2]. apply Forall_app. split; [|exact P2].
    destruct (e_out e); cbn; auto. inversion P1; auto.
  - (* OLogPop *) left. eexists. split; [reflexivity|]. unfold LogPop. destruct (e_pending e) as [x|] eqn:Ep; [|destruct (e_logq e) as [|x q] eqn:El].
    1,2: split; eauto 10; unfold waiting in *; rewrite ?Ep in *; auto.
    split; cbn [e_prop e_corrs e_log e_state e_heap e_enabled e_slip e_rot_cov e_vel_cov e_pos_cov]; eauto 10.
    unfold waiting in *. cbn [e_out e_logq e_pending e_log]. rewrite Ep, El in Hpub. rewrite app_nil_r in Hpub. apply Forall_app in Hpub. destruct Hpub as [P1 P2].
    inversion P2; subst. apply Forall_app. split; auto. apply Forall_app. auto.
  - (* OLogWrite *) left. unfold LogWrite. destruct (e_pending e) as [x|] eqn:Ep.
    2:{ eexists. split; [reflexivity|]. split; eauto 10. }
    unfold waiting in Hpub. rewrite Ep in Hpub. apply Forall_app in Hpub. destruct Hpub as [P1 P2]. apply Forall_app in P2. destruct P2 as [P2 P3].
    assert (forall last lines, est_ok fut (e_log e (e_logq e) None last lines)) as HG.
    { intros. split; cbn [e_prop e_corrs e_log e_state e_heap e_enabled e_slip e_rot_cov e_vel_cov e_pos_cov]; eauto 10.
      unfold waiting. cbn [e_out e_logq e_pending e_log]. rewrite app_nil_r. apply Forall_app; auto. }
    inversion P3 as [|y z S0 _]; subst. destruct S0 as (n & t & W & _ & Et). unfold get_time. rewrite Et. cbn [of_opt bind].
    destruct (e_logger e && log_due (e_rate e) (t - e_lastpub e)).
    2:{ eexists. split; [reflexivity|]. apply HG. }
    assert (stype x = WorldCentric) as ET by apply W.
    assert (get_velocity x = Ok (col (sX x) 0) /\ get_position x = Ok (col (sX x) 1)) as [V1 V2].
    { destruct W as [[WX _ _ _ _] HK _ _ _]. unfold get_velocity, get_position. rewrite !cgetV3_ok; auto; rewrite ?(sek_rows _ _ WX), ?(sek_cols _ _ WX); lia. }
    unfold get_world_rotation, get_world_position, get_world_velocity, get_body_velocity. rewrite ET, V1, V2, (get_rotation_ok _ _ W). cbn [bind].
    eexists. split; [reflexivity|]. apply HG.
Qed.

(** ** from construction *)
Definition mk_corr (e : error_type) (g : corr_cfg) : corr_obj :=
  match g with GVel g => CVel (VelocityCorrection [] e g) | GLeg g => CLeg (LeggedKinematicsCorrection [] e g) end.
Lemma add_correction_eq e g : add_correction e g = e_set_corrs e (e_corrs e ++ [mk_corr (e_err e) g]).
Proof. destruct g; reflexivity. Qed.
Lemma fold_add gs : forall e, fold_left add_correction gs e = e_set_corrs e (e_corrs e ++ map (mk_corr (e_err e)) gs).
Proof.
  induction gs as [|g gs IH]; intros e; cbn [fold_left map].
  - rewrite app_nil_r. destruct e; reflexivity.
  - rewrite IH, add_correction_eq. cbn [e_corrs e_set_corrs e_set e_err]. rewrite <- app_assoc. reflexivity.
Qed.
Lemma build_eq f : build f = e_set_corrs (add_imu_propagation (InekfEstimator (f_err f) (f_est f)) [] (f_imu f)) (map (mk_corr (f_err f)) (f_corrs f)).
Proof. unfold build. rewrite fold_add. reflexivity. Qed.
Lemma leg_of_build e gs c : leg_of (map (mk_corr e) gs) = Some c -> forall id, lc_map c id = None.
Proof. induction gs as [|[g|g] gs IH]; cbn; [discriminate|auto|]. intros [= <-]. reflexivity. Qed.
Lemma n_leg_build e gs : n_leg (map (mk_corr e) gs) = length (filter is_leg gs).
Proof. unfold n_leg. induction gs as [|[g|g] gs IH]; cbn; auto. Qed.
Lemma dflt_nz o d : o <> Some 0 -> d <> 0 -> dflt o d <> 0.
Proof. destruct o as [x|]; cbn; [intros H _ E; apply H; congruence|auto]. Qed.
Lemma mk_corr_noise e g : corr_cfg_ok g -> corr_noise (mk_corr e g).
Proof.
  destruct g as [g|g]; cbn [corr_cfg_ok mk_corr corr_noise]; intros H.
  - apply ctor_vel_noise. intros x E ->. apply H; exact E.
  - apply ctor_leg_noise. intros x E ->. apply H; exact E.
Qed.
Lemma sq_or_pos o d : 0 <= d -> 0 <= sq_or o d.
Proof. destruct o; cbn [sq_or]; auto. intros _. apply pow2_ge_0. Qed.

Lemma build_ok f fut : config_ok f -> imu_stream fut -> est_ok fut (build f).
Proof.
  intros (H1 & H2 & H3) HS. rewrite build_eq. constructor; cbn [e_prop e_corrs e_set_corrs e_set e_set_prop add_imu_propagation InekfEstimator e_err e_state e_heap e_enabled e_slip e_rot_cov e_vel_cov e_pos_cov]; try discriminate.
  - eexists. split; [reflexivity|]. split; [apply ctor_noise_ok|]. split; [exact H1|]. split; [exact HS|]. discriminate.
  - apply Forall_map. eapply Forall_impl; [|exact H2]. intros g Hg. apply mk_corr_noise. exact Hg.
  - rewrite n_leg_build. exact H3.
  - reflexivity.
  - repeat split; apply sq_or_pos; lra.
  - intros _. split; [constructor; reflexivity|]. apply leg_of_build.
  - unfold waiting. cbn. constructor.
Qed.

Lemma run_safe : forall os e, est_ok (imus os) e -> protocol e os ->
  match est_run e os with
  | Ok e' => est_ok [] e'
  | Fail er => er = Spin /\ exists pre l post e1, os = pre ++ OInitState l :: post /\ est_run e pre = Ok e1 /\ ~ fed_all (e_corrs e1) l
  end.
Proof.
  induction os as [|o os IH]; intros e HE HP; cbn [est_run foldM] in *; [exact HE|].
  rewrite imus_cons in HE. destruct HP as [HA HP]. destruct (step_safe _ _ _ HE HA) as [(e' & E & HE')|[E (l & -> & NF)]].
  - rewrite E. cbn [bind]. specialize (IH e' HE' (HP _ E)). unfold est_run in IH. destruct (foldM est_step e' os) as [e2|er] eqn:E2; [exact IH|].
    destruct IH as [-> (pre & l & post & e1 & -> & E1 & NF)]. split; [reflexivity|]. exists (o :: pre), l, post, e1. split; [reflexivity|]. split; [|exact NF].
    cbn [est_run foldM]. rewrite E. cbn [bind]. exact E1.
  - rewrite E. cbn [bind]. split; [reflexivity|]. exists [], l, os, e. auto.
Qed.
Lemma on_sound fut e : est_ok fut e -> e_enabled e = true -> sound (e_state e).
Proof.
  intros HE He. destruct (ok_prop _ _ HE) as (ip & _ & _ & _ & _ & HR). destruct (HR He) as (tp & t & m & _ & Et & _).
  eapply core_sound; [apply (ok_on _ _ HE He)|exact Et].
Qed.
Lemma off_sound fut e : est_ok fut e -> exists n, wfp (2 + n) (e_state e) /\ psd (sP (e_state e)).
Proof.
  intros HE. destruct (e_enabled e) eqn:He.
  - destruct (on_sound _ _ HE He) as (n & t & W & P & _). eauto.
  - destruct (ok_off _ _ HE He) as [B _]. exists 0%nat. split; [apply blank_wfp; exact B|]. rewrite (bl_P _ B). apply psd_eye.
Qed.

Lemma thm_safe f os : config_ok f -> imu_stream (imus os) -> protocol (build f) os ->
  match est_run (build f) os with
  | Ok e => (exists n, wfp (2 + n) (e_state e) /\ psd (sP (e_state e))) /\ Forall sound (e_out e) /\ Forall sound (e_logq e) /\
            (forall s, e_pending e = Some s -> sound s) /\ (e_enabled e = true -> sound (e_state e))
  | Fail er => er = Spin /\ exists pre l post e1, os = pre ++ OInitState l :: post /\ est_run (build f) pre = Ok e1 /\ ~ fed_all (e_corrs e1) l
  end.
Proof.
  intros HC HS HP. pose proof (run_safe os (build f) (build_ok f _ HC HS) HP) as H. destruct (est_run (build f) os) as [e|er]; [|exact H].
  split; [eapply off_sound; eauto|]. pose proof (ok_pub _ _ H) as Hpub. unfold waiting in Hpub. apply Forall_app in Hpub. destruct Hpub as [P1 P2]. apply Forall_app in P2. destruct P2 as [P2 P3].
  split; [exact P1|]. split; [exact P2|]. split; [|eapply on_sound; eauto]. intros s Es. rewrite Es in P3. inversion P3; auto.
Qed.
(** protocol with fed initialisations never fails *)
Lemma thm_safe_fed f os : config_ok f -> imu_stream (imus os) -> protocol (build f) os ->
  (forall pre l post e1, os = pre ++ OInitState l :: post -> est_run (build f) pre = Ok e1 -> fed_all (e_corrs e1) l) ->
  exists e, est_run (build f) os = Ok e.
Proof.
  intros HC HS HP HF. pose proof (thm_safe f os HC HS HP) as H. destruct (est_run (build f) os) as [e|er]; [eauto|].
  destruct H as [_ (pre & l & post & e1 & E1 & E2 & NF)]. exfalso. apply NF. eapply HF; eauto.
Qed.
