(** Proofs for C81: progress, and example histories. *)
From Coq Require Import Reals ZArith List Bool Arith Lia Lra.
From Verif Require Import Res Vec3 Mat MatInv Psd Spec LieGroup RobotState SpecFilter Imu Propagation SpecProp VelCorr LegCorr Quat ImuThms Kinematics SpecKin KinVel Estimator SpecEst EstSafe EstPub EstHist EstTime SpecConv SpecSched Sched SchedMore ClearThms
  Driver SpecDriver DriverThms Ros SpecRos RosThms RosPub RosOdom Node SpecNode NodeThms.
Import ListNotations.
Local Open Scope R_scope.

Definition ev_of (o : op) : list event := match o with OImu m => [EImu m] | OVel i m => [EVel i m] | OLeg i m => [ELeg i m] | _ => [] end.
Lemma push_events : forall ops e r, Forall push_op ops -> est_run e ops = Ok r -> prog_run e (flat_map ev_of ops) = Ok r /\ samples (flat_map ev_of ops) = imus ops /\ iterations waiting_sample e (flat_map ev_of ops) = 0%nat.
Proof.
  induction ops as [|o ops IH]; intros e r HF R; [auto|]. inversion HF as [|? ? H1 H2]; subst. unfold est_run in R. cbn [foldM] in R. apply bind_inv in R. destruct R as (e1 & S & R). destruct (IH e1 r H2 R) as (A & B & C).
  cbn [flat_map]. destruct o; try contradiction; cbn [ev_of app]; unfold prog_run in *; cbn [foldM prog_step samples imus iterations]; rewrite S; cbn [bind]; rewrite ?B, ?C; auto.
Qed.
Lemma iterations_app : forall a e e1 b, prog_run e a = Ok e1 -> iterations waiting_sample e (a ++ b) = (iterations waiting_sample e a + iterations waiting_sample e1 b)%nat.
Proof.
  induction a as [|v a IH]; intros e e1 b R; unfold prog_run in *; cbn [app foldM iterations] in *; [injection R as <-; reflexivity|]. apply bind_inv in R. destruct R as (e2 & S & R). rewrite S, (IH e2 e1 b R). lia.
Qed.
Lemma samples_app a b : samples (a ++ b) = samples a ++ samples b.
Proof. induction a as [|v a IH]; [reflexivity|]. cbn [app]. rewrite !samples_cons, IH, app_assoc. reflexivity. Qed.
Definition step_busy (n : node) (v : nodev) : nat := match v with NIter _ => if waiting_sample (n_est n) then 1 else 0 | _ => 0 end.
Lemma node_events k pr par sn ms l n v n1 : ratio_is k pr par -> sensor_ok sn -> Forall (message_ok sn) (vmsg v) -> ni k pr par sn (vmsg v ++ ms) l n -> node_step sn n v = Ok n1 ->
  exists evs, prog_run (n_est n) evs = Ok (n_est n1) /\ samples evs = imsgs (vmsg v) /\ iterations waiting_sample (n_est n) evs = step_busy n v.
Proof.
  intros HR HS HM HN E. destruct v as [m|lx| | | | |]; cbn [vmsg app] in *.
  - destruct HN as [H1 H2 H3 H4]. inversion HM as [|? ? HM1 _]; subst. destruct (callback_ok sn (n_odom n) m ms HS HM1 H2) as (o' & ops & Ec & _ & HF & HI & _). cbn [node_step] in E. rewrite Ec in E. cbn [bind] in E.
    apply bind_inv in E. destruct E as (e & R & E). injection E as <-. cbn [n_est step_busy]. destruct (push_events ops _ _ HF R) as (A & B & C). exists (flat_map ev_of ops). rewrite B, C. auto.
  - cbn [node_step] in E. apply bind_inv in E. destruct E as (e & R & E). injection E as <-. exists [EIter lx]. unfold prog_run. cbn [foldM iterations n_est]. rewrite R. cbn [bind step_busy]. split; [reflexivity|]. split; [reflexivity|]. lia.
  - cbn [node_step] in E. destruct (pub_only k pr par sn ms l n PCheck _ HR HN (or_introl eq_refl) eq_refl) as (n2 & E2 & ops & X & Q & N). rewrite E2 in E. injection E as <-. subst ops. destruct X as [X _]. exists []. rewrite X. auto.
  - cbn [node_step] in E. destruct (pub_only k pr par sn ms l n PTake _ HR HN (or_intror (or_introl eq_refl)) eq_refl) as (n2 & E2 & ops & X & Q & N). rewrite E2 in E. injection E as <-. subst ops. destruct (pb_took (n_pub n)).
    + cbn [exec] in X. destruct X as (e1 & p' & _ & S & _ & -> & _). exists [ETake]. unfold prog_run. cbn [foldM iterations prog_step]. rewrite S. auto.
    + destruct X as [X _]. exists []. rewrite X. auto.
  - cbn [node_step] in E. destruct (pub_only k pr par sn ms l n PPath _ HR HN (or_intror (or_intror eq_refl)) eq_refl) as (n2 & E2 & ops & X & Q & N). rewrite E2 in E. injection E as <-. subst ops. destruct X as [X _]. exists []. rewrite X. auto.
  - cbn [node_step] in E. apply bind_inv in E. destruct E as (e & R & E). injection E as <-. exists [ELogPop]. unfold prog_run. cbn [foldM iterations n_est]. rewrite R. auto.
  - cbn [node_step] in E. apply bind_inv in E. destruct E as (e & R & E). injection E as <-. exists [ELogWrite]. unfold prog_run. cbn [foldM iterations n_est]. rewrite R. auto.
Qed.
Lemma node_loop k pr par sn : ratio_is k pr par -> sensor_ok sn -> forall vs n l n1, Forall (message_ok sn) (messages vs) -> ni k pr par sn (messages vs) l n -> foldM (node_step sn) n vs = Ok n1 ->
  exists evs, prog_run (n_est n) evs = Ok (n_est n1) /\ samples evs = imsgs (messages vs) /\ iterations waiting_sample (n_est n) evs = busy sn n vs.
Proof.
  intros HR HS. induction vs as [|v vs IH]; intros n l n1 HM HN R; cbn [foldM busy] in *.
  - injection R as <-. exists []. auto.
  - rewrite messages_cons in *. apply Forall_app in HM. destruct HM as [HM1 HM2]. apply bind_inv in R. destruct R as (n2 & S & R). destruct (node_events k pr par sn _ l n v n2 HR HS HM1 HN S) as (ev1 & A1 & B1 & C1).
    pose proof (node_step_ok k pr par sn (messages vs) l n v HR HS HM1 HN) as SO. rewrite S in SO. destruct SO as (ops & l' & _ & N & _). destruct (IH n2 _ n1 HM2 N R) as (ev2 & A2 & B2 & C2).
    exists (ev1 ++ ev2). rewrite samples_app, imsgs_app, B1, B2, (iterations_app _ _ _ _ A1), C1, C2, S. split; [unfold prog_run in *; rewrite foldM_app, A1; exact A2|]. auto.
Qed.
Lemma F2_len {A B} (Q : A -> B -> Prop) l k : Forall2 Q l k -> length l = length k.
Proof. induction 1; cbn; congruence. Qed.
Lemma thm_node_progress k P vs n : program_ok k P -> messages_ok (np_sensor P) (messages vs) -> node_run P vs = Ok n ->
  exists taken, Forall2 sample_for (imu_messages (messages vs)) (taken ++ imu_queue (n_est n)) /\
    (busy (np_sensor P) (node_start P) vs <= length taken + 1)%nat /\
    (length taken <= window (np_est P) + length (pb_sent (n_pub n)) + length (e_out (n_est n)))%nat /\
    (e_enabled (n_est n) = true <-> (window (np_est P) < length taken)%nat).
Proof.
  intros HP HM HR. destruct (NodeThms.thm_node_progress k P vs n HP HM HR) as (tk & F & L & En). exists tk. split; [exact F|]. split; [|auto].
  pose proof HP as (HC & HRt & HS). destruct (node_loop k _ _ (np_sensor P) HRt HS vs (node_start P) [] n (proj1 HM) (start_ni k P _ HP HM) HR) as (evs & R & Sm & It).
  destruct (thm_one_per_sample (np_est P) evs (n_est n) HC) as (tk' & Q & _ & I & _); [rewrite Sm; eapply imsgs_stream; exact HM|exact R|].
  rewrite <- It. assert (length tk' = length tk) as <-; [|exact I]. apply F2_len in F. rewrite app_length in F. apply (f_equal (@length _)) in Q. rewrite Sm, app_length in Q. unfold imsgs in Q. rewrite map_length in Q. lia.
Qed.

(** ** any stream of IMU messages with a velocity reading during each iteration and a pass of the pose thread after it *)
Definition tick (v : vmeas) (m : imu_msg) : list nodev := [NMsg (MImu m); NIter [mkArr [[v]] []]; NCheck; NTake].
Lemma tick_messages v ms : messages (flat_map (tick v) ms) = map MImu ms.
Proof. induction ms as [|m ms IH]; [reflexivity|]. cbn [flat_map map]. rewrite messages_app, IH. reflexivity. Qed.
Lemma tick_iter v : forall ms pre lx post, flat_map (tick v) ms = pre ++ NIter lx :: post -> lx = [mkArr [[v]] []].
Proof.
  induction ms as [|m ms IH]; intros pre lx post; cbn [flat_map tick app]; [destruct pre; discriminate|].
  destruct pre as [|a [|b [|c [|d pre]]]]; cbn [app]; intros [=]; subst; auto. eapply IH; eauto.
Qed.
Lemma imu_only ms : imu_messages (map MImu ms) = ms. Proof. induction ms as [|m ms IH]; cbn; [reflexivity|]. unfold imu_messages in IH. rewrite IH. reflexivity. Qed.
Lemma no_odom ms : odom_messages (map MImu ms) = []. Proof. induction ms; cbn; auto. Qed.
Lemma tick_ok sn v ms : Forall (fun m => im_q m = mkQ 0 0 0 0 \/ qnorm2 (im_q m) = 1) ms -> sorted (map (fun m => time_of (im_stamp m)) ms) -> messages_ok sn (messages (flat_map (tick v) ms)).
Proof.
  intros H1 H2. rewrite tick_messages. split; [|rewrite imu_only, no_odom; split; [exact H2|exact I]]. apply Forall_forall. intros r Hr. apply in_map_iff in Hr. destruct Hr as (m & <- & Hm). rewrite Forall_forall in H1. exact (H1 m Hm).
Qed.
Lemma prefix_ok sn a b : messages_ok sn (messages (a ++ b)) -> messages_ok sn (messages a).
Proof.
  rewrite messages_app. intros (H1 & H2 & H3). unfold messages_ok, imu_messages, odom_messages in *. rewrite flat_map_app, map_app in H2, H3. split; [apply Forall_app in H1; apply H1|]. split.
  - clear -H2. destruct (map _ (flat_map _ (messages a))) as [|x l]; [exact I|]. cbn [app sorted] in *. revert x H2. induction l as [|y l IH]; intros x H; cbn [app nondec] in *; [exact I|]. destruct H as [A B]. split; [exact A|apply IH, B].
  - clear -H3. induction (map _ (flat_map _ (messages a))) as [|x l IH]; [exact I|]. destruct l as [|y l]; [exact I|]. destruct H3 as [A B]. split; [exact A|apply IH, B].
Qed.
Lemma tick_runs k P g v ms : program_ok k P -> f_corrs (np_est P) = [GVel g] -> messages_ok (np_sensor P) (messages (flat_map (tick v) ms)) -> exists n, node_run P (flat_map (tick v) ms) = Ok n.
Proof.
  intros HP Hg HM. pose proof (run_start k P _ HP HM) as H. destruct (node_run P (flat_map (tick v) ms)) as [n|er]; [eauto|]. destruct H as (_ & pre & lx & post & n1 & E & R & _ & _ & NF). exfalso. apply NF.
  rewrite (tick_iter _ _ _ _ _ E). rewrite E in HM. pose proof (run_start k P pre HP (prefix_ok _ _ _ HM)) as H1. rewrite R in H1. destruct H1 as (os & l & X & _). apply exec_iff in X. destruct X as (_ & RR & _).
  destruct (run_fixed _ _ _ RR) as (_ & F & _). rewrite build_eq, Hg in F. cbn [e_corrs e_set_corrs e_set map mk_corr] in F.
  destruct (e_corrs (n_est n1)) as [|c [|c' cs]]; cbn in F; try discriminate. destruct c as [c|c]; cbn in F; [|discriminate]. cbn. split; [|exact I]. destruct (vc_queue c); discriminate.
Qed.
Lemma foldM_prefix {A S} (f : S -> A -> res S) a b s r : foldM f s (a ++ b) = Ok r -> exists s1, foldM f s a = Ok s1 /\ foldM f s1 b = Ok r.
Proof. rewrite foldM_app. intros H. apply bind_inv in H. exact H. Qed.
(** each iteration finds the sample that has just arrived *)
Lemma tick_busy k P v : program_ok k P -> forall ms n l n', Forall (message_ok (np_sensor P)) (map MImu ms) -> ni k (np_pose_rate P) (np_path_rate P) (np_sensor P) (map MImu ms) l n ->
  foldM (node_step (np_sensor P)) n (flat_map (tick v) ms) = Ok n' -> busy (np_sensor P) n (flat_map (tick v) ms) = length ms.
Proof.
  intros (HC & HR & HS). induction ms as [|m ms IH]; intros n l n' HM HN E; [reflexivity|]. cbn [map] in HM, HN. inversion HM as [|? ? M1 M2]; subst. cbn [flat_map tick app foldM] in E.
  apply bind_inv in E. destruct E as (n1 & E1 & E). apply bind_inv in E. destruct E as (n2 & E2 & E). apply bind_inv in E. destruct E as (n3 & E3 & E). apply bind_inv in E. destruct E as (n4 & E4 & E).
  cbn [flat_map tick app busy length]. rewrite E1, E2, E3, E4.
  pose proof (node_step_ok k _ _ _ (map MImu ms) l n (NMsg (MImu m)) HR HS (Forall_cons _ M1 (Forall_nil _)) HN) as S1. rewrite E1 in S1. destruct S1 as (o1 & l1 & X1 & N1 & _ & I1 & _).
  pose proof (node_step_ok k _ _ _ (map MImu ms) _ n1 (NIter [mkArr [[v]] []]) HR HS (Forall_nil _) N1) as S2. rewrite E2 in S2. destruct S2 as (o2 & l2 & _ & N2 & _).
  pose proof (node_step_ok k _ _ _ (map MImu ms) _ n2 NCheck HR HS (Forall_nil _) N2) as S3. rewrite E3 in S3. destruct S3 as (o3 & l3 & _ & N3 & _).
  pose proof (node_step_ok k _ _ _ (map MImu ms) _ n3 NTake HR HS (Forall_nil _) N3) as S4. rewrite E4 in S4. destruct S4 as (o4 & l4 & _ & N4 & _).
  rewrite (IH n4 _ n' M2 N4 E). assert (waiting_sample (n_est n1) = true) as ->; [|reflexivity].
  pose proof (callback_ok (np_sensor P) (n_odom n) (MImu m) (map MImu ms) HS M1 (ni_odom _ _ _ _ _ _ _ HN)) as (o' & ops & Ec & _ & HF & HI & _). cbn [node_step] in E1. cbn [callback] in E1. cbn [callback] in Ec.
  destruct (IMUCallback m []) as [q|]; [|discriminate]. cbn [bind] in E1, Ec. injection Ec as <- <-. assert (q <> []) as Q by (intros ->; discriminate). apply bind_inv in E1. destruct E1 as (e & R & E1). injection E1 as <-. cbn [n_est].
  destruct (ok_prop _ _ (ni_est _ _ _ _ _ _ _ HN)) as (ip & Hip & _). clear -R Q Hip. revert q Q R. assert (forall q e0 ip0, e_prop e0 = Some ip0 -> est_run e0 (map OImu q) = Ok e -> imu_queue e = ip_queue ip0 ++ q) as G.
  { induction q as [|x q IHq]; intros e0 ip0 H0 R; unfold est_run in *; cbn [map foldM est_step] in R; [injection R as <-; unfold imu_queue; rewrite H0, app_nil_r; reflexivity|]. rewrite H0 in R. cbn [of_opt bind] in R.
    rewrite (IHq (e_set_prop e0 (set_queue ip0 (ip_queue ip0 ++ [x]))) (set_queue ip0 (ip_queue ip0 ++ [x])) eq_refl R). cbn. rewrite <- app_assoc. reflexivity. }
  intros q Q R. unfold waiting_sample. rewrite (G q _ _ Hip R). destruct (ip_queue ip), q; cbn; congruence.
Qed.
Lemma thm_tick k P g v ms : program_ok k P -> f_corrs (np_est P) = [GVel g] -> Forall (fun m => im_q m = mkQ 0 0 0 0 \/ qnorm2 (im_q m) = 1) ms -> sorted (map (fun m => time_of (im_stamp m)) ms) ->
  messages_ok (np_sensor P) (messages (flat_map (tick v) ms)) /\ imu_messages (messages (flat_map (tick v) ms)) = ms /\
  exists n, node_run P (flat_map (tick v) ms) = Ok n /\ (length ms <= 1 + window (np_est P) + length (pb_sent (n_pub n)) + length (e_out (n_est n)))%nat.
Proof.
  intros HP Hg H1 H2. pose proof (tick_ok (np_sensor P) v ms H1 H2) as HM. split; [exact HM|]. split; [rewrite tick_messages; apply imu_only|]. destruct (tick_runs k P g v ms HP Hg HM) as (n & R). exists n. split; [exact R|].
  destruct (thm_node_progress k P _ n HP HM R) as (tk & _ & B & L & _). pose proof (start_ni k P _ HP HM) as N. rewrite tick_messages in N, HM. rewrite (tick_busy k P v HP ms (node_start P) [] n (proj1 HM) N R) in B. lia.
Qed.
