(** Proofs for the shipped main programs: C72, C73. *)
From Coq Require Import Reals ZArith List Bool Arith Lia Lra.
From Verif Require Import Res Vec3 Mat MatInv Psd Spec LieGroup RobotState Inekf SpecFilter Imu Propagation SpecProp VelCorr LegCorr SpecCorr
  Estimator SpecEst LieSEK PsdBlk ImuNeg VelThms EstInv EstSafe EstPub EstHist EstTime Driver SpecDriver.
Import ListNotations.
Local Open Scope R_scope.

(** ** the loop follows the protocol: an iteration is one of the allowed calls *)
Definition op_of (e : est) (v : event) : op :=
  match v with
  | EIter l => if e_enabled e then ORunOnce l else
      match BiasInitialized e with Ok true => OInitState l | _ => OInitBias end
  | EImu m => OImu m
  | EVel i m => OVel i m
  | ELeg i m => OLeg i m
  | ETake => OPopOut
  | ELogPop => OLogPop
  | ELogWrite => OLogWrite
  end.
Lemma has_prop fut e : est_ok fut e -> exists b, BiasInitialized e = Ok b.
Proof. intros H. destruct (ok_prop _ _ H) as (ip & E & _). unfold BiasInitialized. rewrite E. cbn. eauto. Qed.
Lemma op_of_step fut e v : est_ok fut e -> prog_step e v = est_step e (op_of e v) /\ allowed e (op_of e v).
Proof.
  intros H. destruct v; cbn [prog_step op_of allowed]; auto. unfold main_iteration. destruct (e_enabled e) eqn:En; [auto|].
  destruct (has_prop _ _ H) as [b Eb]. rewrite Eb. cbn [bind]. destruct b; cbn [allowed est_step]; auto.
Qed.
Lemma op_of_imu e v : op_imu (op_of e v) = match v with EImu m => [m] | _ => [] end.
Proof. destruct v; cbn [op_of]; auto. destruct (e_enabled e); [reflexivity|]. destruct (BiasInitialized e) as [[]|]; reflexivity. Qed.
Lemma samples_cons v vs : samples (v :: vs) = (match v with EImu m => [m] | _ => [] end) ++ samples vs.
Proof. destruct v; reflexivity. Qed.
Lemma op_of_clear e v : op_of e v <> OClear.
Proof. destruct v; cbn; try discriminate. destruct (e_enabled e); [discriminate|]. destruct (BiasInitialized e) as [[]|]; discriminate. Qed.


Lemma prog_safe : forall vs e, est_ok (samples vs) e ->
  match prog_run e vs with
  | Ok e' => est_ok [] e' /\ exists os, protocol e os /\ imus os = samples vs /\ est_run e os = Ok e' /\ Forall (fun o => o <> OClear) os
  | Fail er => er = Spin /\ exists pre l post e1, vs = pre ++ EIter l :: post /\ prog_run e pre = Ok e1 /\
      e_enabled e1 = false /\ BiasInitialized e1 = Ok true /\ ~ fed_all (e_corrs e1) l
  end.
Proof.
  induction vs as [|v vs IH]; intros e HE; cbn [prog_run foldM].
  - split; [exact HE|]. exists []. cbn. auto.
  - rewrite samples_cons in HE. rewrite <- (op_of_imu e v) in HE.
    destruct (op_of_step _ _ v HE) as [Es Ha]. destruct (step_safe _ _ _ HE Ha) as [(e' & E & HE')|[E (l & El & NF)]]; rewrite Es, E; cbn [bind].
    + specialize (IH e' HE'). unfold prog_run in IH. destruct (foldM prog_step e' vs) as [e2|er] eqn:E2.
      * destruct IH as (A & os & P & I & R & NC). split; [exact A|]. exists (op_of e v :: os).
        split. { cbn [protocol]. split; [exact Ha|]. intros e'' X. rewrite E in X. injection X as <-. exact P. }
        split. { rewrite imus_cons, samples_cons, op_of_imu, I. reflexivity. }
        split. { unfold est_run in *. cbn [foldM]. rewrite E. cbn [bind]. exact R. }
        constructor; [apply op_of_clear|exact NC].
      * destruct IH as (-> & pre & l & post & e1 & -> & R & A & B & C). split; [reflexivity|]. exists (v :: pre), l, post, e1. split; [reflexivity|].
        split; [|auto]. unfold prog_run in *. cbn [foldM]. rewrite Es, E. cbn [bind]. exact R.
    + split; [reflexivity|]. destruct v; cbn [op_of] in El; try discriminate. destruct (e_enabled e) eqn:En; [discriminate|].
      destruct (BiasInitialized e) as [[]|] eqn:Eb; try discriminate. injection El as ->. exists [], l, vs, e. auto.
Qed.

Lemma thm_loop_safe f vs : config_ok f -> imu_stream (samples vs) ->
  match prog_run (build f) vs with
  | Ok e => (exists n, wfp (2 + n) (e_state e) /\ psd (sP (e_state e))) /\ Forall sound (e_out e) /\ Forall sound (e_logq e) /\
      (forall s, e_pending e = Some s -> sound s) /\ (e_enabled e = true -> sound (e_state e))
  | Fail er => er = Spin /\ exists pre l post e1, vs = pre ++ EIter l :: post /\ prog_run (build f) pre = Ok e1 /\
      e_enabled e1 = false /\ BiasInitialized e1 = Ok true /\ ~ fed_all (e_corrs e1) l
  end.
Proof.
  intros HC HS. pose proof (prog_safe vs _ (build_ok f _ HC HS)) as H. destruct (prog_run (build f) vs) as [e|er]; [|exact H]. destruct H as [H _].
  split; [eapply off_sound; eauto|]. pose proof (ok_pub _ _ H) as Hpub. unfold waiting in Hpub. apply Forall_app in Hpub. destruct Hpub as [P1 P2]. apply Forall_app in P2. destruct P2 as [P2 P3].
  split; [exact P1|]. split; [exact P2|]. split; [|eapply on_sound; eauto]. intros s Es. rewrite Es in P3. inversion P3; auto.
Qed.
Lemma thm_loop_protocol f vs e : config_ok f -> imu_stream (samples vs) -> prog_run (build f) vs = Ok e ->
  exists os, reachable f os e /\ imus os = samples vs.
Proof.
  intros HC HS HR. pose proof (prog_safe vs _ (build_ok f _ HC HS)) as H. rewrite HR in H. destruct H as (_ & os & P & I & R & _). exists os. split; [|exact I].
  split; [exact HC|]. rewrite I. auto.
Qed.

(** the shipped configurations are usable *)
Lemma thm_shipped_ok : Forall config_ok shipped.
Proof.
  unfold shipped. repeat apply Forall_cons; try apply Forall_nil.
  all: unfold config_ok; split; [|split]; [cbn; intros; lia| |cbn; lia].
  all: cbn [f_corrs fetch fetch_gyro_filter girona500 husky husky_double_imu_filter husky_gyro_filter husky_odom mini_cheetah neya neya_gyro_filter];
    apply Forall_cons; [|apply Forall_nil]; cbn [corr_cfg_ok g_std h_kin]; intros [=]; lra.
Qed.

(** ** one state per IMU sample *)
Definition dlv (v : event) : list imu := match v with EImu m => [m] | _ => [] end.
(** n samples have been taken so far, b iterations found one waiting *)
Definition phase (f : config) (e : est) (n b : nat) : Prop :=
  exists ip, e_prop e = Some ip /\ ip_static ip = dflt (c_static (f_imu f)) true /\ ip_init_size ip = dflt (c_init_size (f_imu f)) 0%Z /\
  if e_enabled e then (window f < n)%nat /\ (b <= n + 1)%nat
  else if ip_bias_init ip then n = window f /\ (b <= n + 1)%nat
  else n = length (ip_vec ip) /\ (n <= window f)%nat /\ (b <= n)%nat.
Definition step_pub (e e' : est) (v : event) : nat :=
  match v with EIter _ => if waiting_sample e then length (e_out e') - length (e_out e) else 0 | _ => 0 end.
Definition step_busy (e : est) (v : event) : nat := match v with EIter _ => if waiting_sample e then 1 else 0 | _ => 0 end.
Lemma ip_fixed_static ip ip' : ip_fixed ip' = ip_fixed ip -> ip_static ip' = ip_static ip /\ ip_init_size ip' = ip_init_size ip.
Proof. unfold ip_fixed. intros E. split; congruence. Qed.
Lemma fixed_prop e e' ip : option_map ip_fixed (e_prop e') = option_map ip_fixed (e_prop e) -> e_prop e = Some ip ->
  exists ip', e_prop e' = Some ip' /\ ip_static ip' = ip_static ip /\ ip_init_size ip' = ip_init_size ip.
Proof.
  intros E H. rewrite H in E. destruct (e_prop e') as [ip'|]; [|discriminate]. cbn in E. injection E as E1 E2 E3 E4 E5 E6 E7 E8 E9. exists ip'. auto.
Qed.
Lemma phase_step f e v e' n b fut : est_ok (dlv v ++ fut) e -> (dflt (c_static (f_imu f)) true = true -> (0 < dflt (c_init_size (f_imu f)) 0)%Z) -> phase f e n b -> prog_step e v = Ok e' ->
  exists tk, imu_queue e ++ dlv v = tk ++ imu_queue e' /\ phase f e' (n + length tk) (b + step_busy e v) /\
    (n - window f + step_pub e e' v = n + length tk - window f)%nat.
Proof.
  intros HE HW (ip & Hip & Hs & Hz & HP) E.
  assert (forall e', e_prop e' = Some ip -> e_enabled e' = e_enabled e -> phase f e' n b) as Hsame.
  { intros e0 H1 H2. exists ip. rewrite H1, H2. auto. }
  destruct v as [l|m|i m|i m| | |]; cbn [prog_step dlv step_pub step_busy] in *.
  2:{ cbn [est_step] in E. rewrite Hip in E. cbn [of_opt bind] in E. injection E as <-. exists []. unfold imu_queue. cbn [e_set_prop e_set e_prop]. rewrite Hip. cbn [app length ip_queue set_queue].
      split; [reflexivity|]. rewrite !Nat.add_0_r. split; [|lia]. eexists. cbn [e_prop e_set_prop e_set e_enabled]. split; [reflexivity|]. cbn. auto. }
  2,3: cbn [est_step] in E; injection E as <-; exists []; unfold imu_queue; cbn [e_set_corrs e_set e_prop app length]; rewrite Hip, app_nil_r, !Nat.add_0_r;
      (split; [reflexivity|]); (split; [|lia]); apply Hsame; auto.
  2:{ cbn [est_step] in E; injection E as <-; exists []; unfold imu_queue; cbn [e_set_out e_set e_prop app length]; rewrite Hip, app_nil_r, !Nat.add_0_r.
      split; [reflexivity|]. split; [|lia]. apply Hsame; auto. }
  2:{ cbn [est_step] in E; injection E as <-. exists []. assert (e_prop (LogPop e) = e_prop e /\ e_enabled (LogPop e) = e_enabled e) as [Q1 Q2]
        by (unfold LogPop; destruct (e_pending e), (e_logq e); auto).
      unfold imu_queue. rewrite Q1, app_nil_r, Nat.add_0_r. cbn [app length]. rewrite !Nat.add_0_r. split; [reflexivity|]. split; [|lia]. apply Hsame; congruence. }
  2:{ cbn [est_step] in E. exists []. assert (e_prop e' = e_prop e /\ e_enabled e' = e_enabled e) as [Q1 Q2].
      { unfold LogWrite in E. destruct (e_pending e) as [x|]; [|injection E as <-; auto]. apply bind_inv in E. destruct E as (t & _ & E).
        destruct (e_logger e && log_due (e_rate e) (t - e_lastpub e)); [|injection E as <-; auto].
        repeat (apply bind_inv in E; destruct E as (? & _ & E)). injection E as <-. auto. }
      unfold imu_queue. rewrite Q1, app_nil_r. cbn [app length]. rewrite !Nat.add_0_r. split; [reflexivity|]. split; [|lia]. apply Hsame; congruence. }
  cbn [app] in HE. rewrite app_nil_r. unfold main_iteration in E. destruct (e_enabled e) eqn:En.
  - destruct (RunOnce_spec _ _ l HE En) as (e1 & fs & bb & tp & R & _ & _ & Hq & Hb & _ & Ho & _ & En' & _). rewrite R in E. injection E as <-.
    destruct (fixed_prop e e1 ip) as (ip' & Hip' & F1 & F2); [|exact Hip|]. { apply (step_fixed e (ORunOnce l)). exact R. }
    unfold waiting_sample. destruct (imu_queue e) as [|m q] eqn:Q.
    + exists []. cbn [tl] in Hq. rewrite Hq. cbn [app length]. rewrite !Nat.add_0_r. split; [reflexivity|]. split; [|lia].
      exists ip'. rewrite Hip', F1, F2, En'. auto.
    + exists [m]. cbn [tl] in Hq. rewrite Hq. cbn [app length]. split; [reflexivity|]. assert (bb = true) as -> by (apply Hb; left; discriminate).
      rewrite Ho. cbn [pub_of]. rewrite app_length. cbn [length]. split; [|lia]. exists ip'. rewrite Hip', F1, F2, En'. split; [auto|]. split; [auto|]. split; [auto|]. lia.
  - unfold BiasInitialized in E. rewrite Hip in E. cbn [of_opt bind] in E. destruct (ip_bias_init ip) eqn:Eb.
    + pose proof (InitState_spec _ _ _ _ _ HE En Hip E) as HI. unfold waiting_sample, imu_queue in *. rewrite Hip. destruct (ip_queue ip) as [|m q] eqn:Q.
      * subst e'. exists []. cbn [e_set_corrs e_set e_prop app length]. rewrite Hip, Q, !Nat.add_0_r. split; [reflexivity|]. split; [|lia]. apply Hsame; auto.
      * destruct HI as (us & _ & En' & Hp' & Ho & _). exists [m]. rewrite Hp'. cbn [set_prev set_queue ip_queue app length]. split; [reflexivity|].
        rewrite Ho, app_length. cbn [length]. split; [|lia]. eexists. rewrite Hp', En'. split; [reflexivity|]. cbn. split; [auto|]. split; [auto|]. lia.
    + unfold InitBias in E. rewrite Hip in E. cbn [of_opt bind] in E. destruct (InitImuBias ip) as [ip'|] eqn:EI; [|discriminate]. cbn [bind] in E. injection E as <-.
      destruct (ip_fixed_static _ _ (InitBias_fixed _ _ EI)) as [F1 F2]. destruct HP as (HP1 & HP2 & HP3).
      unfold waiting_sample, imu_queue. cbn [e_set_prop e_set e_prop e_enabled e_out]. rewrite Hip, Nat.sub_diag.
      assert (forall ip'', e_prop (e_set_prop e ip'') = Some ip'') as HX by reflexivity.
      unfold InitImuBias in EI. destruct (ip_static ip) eqn:Es; cbn [negb] in EI.
      2:{ injection EI as <-. exists []. cbn [set_bias ip_queue app length]. rewrite !Nat.add_0_r. split; [reflexivity|].
          assert (window f = 0%nat) as W by (unfold window; rewrite <- Hs; reflexivity).
          split; [|destruct (ip_queue ip); lia]. eexists. split; [reflexivity|]. cbn [ip_static set_bias ip_init_size e_enabled e_set_prop e_set ip_bias_init]. rewrite En.
          split; [congruence|]. split; [auto|]. split; [lia|]. destruct (ip_queue ip); lia. }
      assert (window f = Z.to_nat (ip_init_size ip)) as W by (unfold window; rewrite <- Hs, Hz; reflexivity).
      specialize (HW (eq_sym Hs)). rewrite <- Hz in HW. unfold size_lt in EI. destruct (Z.ltb_spec (ip_init_size ip) 0); [lia|].
      destruct (Z.ltb_spec (Z.of_nat (length (ip_vec ip))) (ip_init_size ip)) as [L|L].
      * destruct (ip_queue ip) as [|m q] eqn:Q; injection EI as <-.
        -- exists []. rewrite Q. cbn [app length]. rewrite !Nat.add_0_r. split; [reflexivity|]. split; [|lia]. eexists. split; [reflexivity|]. cbn [e_enabled e_set_prop e_set].
           rewrite En, Eb. split; [congruence|]. split; [auto|]. auto.
        -- exists [m]. cbn [set_prev set_vec set_queue ip_queue app length]. split; [reflexivity|]. split; [|lia]. eexists. split; [reflexivity|].
           cbn [e_enabled e_set_prop e_set set_prev set_vec set_queue ip_static ip_init_size ip_bias_init ip_vec]. rewrite En, Eb. split; [congruence|]. split; [auto|].
           rewrite app_length. cbn [length]. lia.
      * destruct (check _ _) as [u|]; [|discriminate]. cbn [bind] in EI. injection EI as <-. exists []. cbn [set_bias ip_queue app length]. rewrite !Nat.add_0_r. split; [reflexivity|].
        split; [|destruct (ip_queue ip); lia]. eexists. split; [reflexivity|]. cbn [e_enabled e_set_prop e_set set_bias ip_static ip_init_size ip_bias_init]. rewrite En.
        split; [congruence|]. split; [auto|]. split; [lia|]. destruct (ip_queue ip); lia.
Qed.

Lemma count_run f : (dflt (c_static (f_imu f)) true = true -> (0 < dflt (c_init_size (f_imu f)) 0)%Z) -> forall vs e e' n b, est_ok (samples vs) e -> phase f e n b -> prog_run e vs = Ok e' ->
  exists tk, imu_queue e ++ samples vs = tk ++ imu_queue e' /\ phase f e' (n + length tk) (b + iterations waiting_sample e vs) /\
    (n - window f + yield waiting_sample e vs = n + length tk - window f)%nat.
Proof.
  intros HW. induction vs as [|v vs IH]; intros e e' n b HE HP HR; cbn [prog_run foldM] in HR.
  - injection HR as <-. exists []. cbn. rewrite app_nil_r, !Nat.add_0_r. auto.
  - apply bind_inv in HR. destruct HR as (e1 & E1 & HR). rewrite samples_cons in HE. fold (dlv v) in HE.
    destruct (phase_step _ _ _ _ _ _ _ HE HW HP E1) as (tk & Q & P1 & N1).
    assert (est_ok (samples vs) e1) as HE1.
    { destruct (op_of_step _ _ v HE) as [Es Ha]. rewrite Es in E1. fold (dlv v) in HE.
      assert (op_imu (op_of e v) = dlv v) as OI by (rewrite op_of_imu; reflexivity). rewrite <- OI in HE.
      destruct (step_safe _ _ _ HE Ha) as [(e2 & E2 & H2)|[E2 _]]; [|congruence]. congruence. }
    destruct (IH _ _ _ _ HE1 P1 HR) as (tk2 & Q2 & P2 & N2). exists (tk ++ tk2). rewrite samples_cons. fold (dlv v).
    rewrite app_assoc, Q, <- !app_assoc, Q2. split; [reflexivity|]. rewrite app_length. cbn [yield iterations]. rewrite E1.
    fold (step_pub e e1 v). fold (step_busy e v). rewrite !Nat.add_assoc. split; [exact P2|]. lia.
Qed.
Lemma thm_one_per_sample f vs e : config_ok f -> imu_stream (samples vs) -> prog_run (build f) vs = Ok e ->
  exists taken, samples vs = taken ++ imu_queue e /\ yield waiting_sample (build f) vs = (length taken - window f)%nat /\
    (iterations waiting_sample (build f) vs <= length taken + 1)%nat /\ (e_enabled e = true <-> (window f < length taken)%nat).
Proof.
  intros HC HS HR. assert (phase f (build f) 0 0) as HP.
  { rewrite build_eq. eexists. split; [reflexivity|]. cbn. split; [reflexivity|]. split; [reflexivity|]. split; [reflexivity|]. lia. }
  destruct (count_run f (proj1 HC) vs _ _ _ _ (build_ok f _ HC HS) HP HR) as (tk & Q & P & N).
  assert (imu_queue (build f) = []) as Q0 by (rewrite build_eq; reflexivity). rewrite Q0 in Q. exists tk. split; [exact Q|]. cbn [Nat.add] in *. split; [lia|].
  destruct P as (ip & _ & _ & _ & P). destruct (e_enabled e); [split; [lia|split; [lia|reflexivity]]|].
  destruct (ip_bias_init ip); (split; [lia|]); split; try discriminate; lia.
Qed.
(** every iteration publishes at most one state, and only an enabled or initialising one *)
Lemma thm_iteration f vs e l e' : config_ok f -> imu_stream (samples vs) -> prog_run (build f) vs = Ok e -> main_iteration e l = Ok e' ->
  exists pub, e_out e' = e_out e ++ pub /\ (length pub <= 1)%nat /\ (forall s, pub = [s] -> s = e_state e') /\ (waiting_sample e = true -> e_enabled e = true -> pub <> []).
Proof.
  intros HC HS HR E. pose proof (prog_safe vs _ (build_ok f _ HC HS)) as H. rewrite HR in H. destruct H as [HE _].
  unfold main_iteration in E. destruct (e_enabled e) eqn:En.
  - destruct (RunOnce_spec _ _ l HE En) as (e1 & fs & bb & tp & R & _ & _ & Hq & Hb & _ & Ho & _ & En' & _). rewrite R in E. injection E as <-.
    exists (pub_of bb (e_state e1)). split; [exact Ho|]. split; [destruct bb; cbn; lia|]. split; [destruct bb; cbn; congruence|]. intros W _.
    assert (bb = true) as -> by (apply Hb; left; unfold waiting_sample in W; destruct (imu_queue e); congruence). discriminate.
  - destruct (ok_prop _ _ HE) as (ip & Hip & _). unfold BiasInitialized in E. rewrite Hip in E. cbn [of_opt bind] in E. destruct (ip_bias_init ip).
    + pose proof (InitState_spec _ _ _ _ _ HE En Hip E) as HI. destruct (ip_queue ip).
      * subst e'. exists []. cbn. rewrite app_nil_r. repeat split; auto; discriminate.
      * destruct HI as (us & _ & En' & Hp' & Ho & _). exists [e_state e']. rewrite Ho. repeat split; auto; try discriminate. intros s [=]; auto.
    + unfold InitBias in E. rewrite Hip in E. cbn [of_opt bind] in E. destruct (InitImuBias ip); [|discriminate]. cbn [bind] in E. injection E as <-.
      exists []. cbn. rewrite app_nil_r. repeat split; auto; discriminate.
Qed.

(** ** programs whose corrections get readings do not fail *)
Lemma thm_loop_fed f vs : config_ok f -> imu_stream (samples vs) ->
  (forall pre l post e1, vs = pre ++ EIter l :: post -> prog_run (build f) pre = Ok e1 -> e_enabled e1 = false -> fed_all (e_corrs e1) l) ->
  exists e, prog_run (build f) vs = Ok e.
Proof.
  intros HC HS HF. pose proof (prog_safe vs _ (build_ok f _ HC HS)) as H. destruct (prog_run (build f) vs) as [e|er]; [eauto|].
  destruct H as [_ (pre & l & post & e1 & E1 & E2 & E3 & _ & NF)]. exfalso. apply NF. eapply HF; eauto.
Qed.
(** a velocity reading arrives during every iteration *)
Definition with_reading (v : vmeas) (m : imu) : list event := [EImu m; EIter [mkArr [[v]] []]].
Lemma in_flat v ms pre l post : flat_map (with_reading v) ms = pre ++ EIter l :: post -> l = [mkArr [[v]] []].
Proof.
  revert pre. induction ms as [|m ms IH]; intros pre; cbn [flat_map with_reading app]; [destruct pre; discriminate|].
  destruct pre as [|a [|b pre]]; cbn [app]; intros [=]; subst; auto. eapply IH; eauto.
Qed.
Lemma samples_flat v ms : samples (flat_map (with_reading v) ms) = ms.
Proof. induction ms as [|m ms IH]; cbn; congruence. Qed.
Lemma thm_fed_program f g v ms : config_ok f -> f_corrs f = [GVel g] -> imu_stream ms ->
  exists e, prog_run (build f) (flat_map (with_reading v) ms) = Ok e.
Proof.
  intros HC Hg HS. apply thm_loop_fed; [exact HC|rewrite samples_flat; exact HS|]. intros pre l post e1 E R _.
  rewrite (in_flat _ _ _ _ _ E). assert (imu_stream (samples pre)) as HSp.
  { apply (f_equal samples) in E. rewrite samples_flat in E. assert (exists r, ms = samples pre ++ r) as [r Er].
    { rewrite E. clear. generalize (EIter l :: post). induction pre as [|a pre IH]; intros r; [eexists; reflexivity|]. destruct (IH r) as [x Hx].
      exists x. cbn [app]. rewrite !samples_cons, Hx, <- app_assoc. reflexivity. }
    rewrite Er in HS. destruct HS as [A B]. split.
    - apply Forall_app in A. tauto.
    - rewrite map_app in B. clear -B. destruct (map i_t (samples pre)) as [|x a]; [exact I|]. cbn [app sorted] in *. revert x B. induction a as [|y a IH]; intros x B; cbn [app nondec] in *; [exact I|].
      destruct B as [B1 B2]. split; [exact B1|]. apply IH. exact B2. }
  pose proof (prog_safe pre _ (build_ok f _ HC HSp)) as H. rewrite R in H. destruct H as (_ & os & _ & _ & RR & _).
  destruct (run_fixed _ _ _ RR) as (_ & F & _). rewrite build_eq, Hg in F. cbn [e_corrs e_set_corrs e_set map mk_corr] in F.
  destruct (e_corrs e1) as [|c [|c' cs]]; cbn in F; try discriminate. destruct c as [c|c]; cbn in F; [|discriminate].
  cbn. split; [|exact I]. destruct (vc_queue c); discriminate.
Qed.
