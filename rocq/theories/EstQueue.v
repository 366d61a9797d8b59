(** Proofs: conservation of sensor readings over arbitrary histories (C49). *)
From Coq Require Import Reals ZArith List Bool Arith Lia Lra.
From Verif Require Import Res Vec3 Mat MatInv LieGroup RobotState Imu Propagation Queue VelCorr LegCorr SpecCorr VelThms LegHist Estimator SpecEst EstPub EstHist.
Import ListNotations.
Local Open Scope R_scope.

(** ** IMU *)
Lemma imu_step_move e o e' : est_step e o = Ok e' -> exists tk, imu_move e o e' tk.
Proof.
  destruct o; cbn [est_step imu_move]; intros E.
  - exists []. destruct (e_prop e) as [ip|] eqn:Hp; [|discriminate]. injection E as <-. unfold imu_queue. rewrite Hp. cbn. auto.
  - exists []. injection E as <-. auto.
  - exists []. injection E as <-. auto.
  - unfold InitBias in E. destruct (e_prop e) as [ip|] eqn:Hp; [|discriminate]. cbn in E. apply bind_inv in E. destruct E as (ip' & E1 & E). injection E as <-.
    unfold imu_queue. rewrite Hp. cbn. unfold InitImuBias in E1. destruct (negb (ip_static ip)); [injection E1 as <-; exists []; cbn; auto|].
    destruct (size_lt _ _).
    + destruct (ip_queue ip) as [|m q] eqn:Eq; injection E1 as <-; [exists []; rewrite Eq|exists [m]]; cbn; auto.
    + apply bind_inv in E1. destruct E1 as (u & _ & E1). injection E1 as <-. exists []; cbn; auto.
  - unfold InitState in E. destruct (e_prop e) as [ip|] eqn:Hp; [|discriminate]. cbn in E. apply bind_inv in E. destruct E as ([[b ip'] s] & E1 & E).
    assert (exists tk, ip_queue ip = tk ++ ip_queue ip' /\ (length tk <= 1)%nat) as (tk & T1 & T2).
    { unfold set_initial_state in E1. destruct (ip_queue ip) as [|m q] eqn:Eq; [injection E1 as <- <- <-; exists []; rewrite Eq; cbn; auto|].
      repeat (apply bind_inv in E1; destruct E1 as (? & _ & E1)). injection E1 as <- <- <-. exists [m]. cbn. auto. }
    exists tk. unfold imu_queue. rewrite Hp. destruct b; cbn [negb] in E.
    + repeat (apply bind_inv in E; destruct E as (? & _ & E); try destruct x). injection E as <-. cbn. auto.
    + injection E as <-. cbn. auto.
  - unfold RunOnce in E. destruct (e_prop e) as [ip|] eqn:Hp; [|discriminate]. cbn in E. apply bind_inv in E. destruct E as ([[b ip'] s] & E1 & E).
    assert (exists tk, ip_queue ip = tk ++ ip_queue ip' /\ (length tk <= 1)%nat) as (tk & T1 & T2).
    { unfold Propagate in E1. destruct (ip_queue ip) as [|m q] eqn:Eq; [injection E1 as <- <- <-; exists []; rewrite Eq; cbn; auto|].
      repeat (apply bind_inv in E1; destruct E1 as (? & _ & E1)). injection E1 as <- <- <-. exists [m]. cbn. auto. }
    exists tk. unfold imu_queue. rewrite Hp. apply bind_inv in E. destruct E as ([[[b2 cs] h] s1] & _ & E).
    destruct (b || b2); [apply bind_inv in E; destruct E as (s2 & _ & E)|]; injection E as <-; cbn; auto.
  - unfold Clear in E. destruct (e_prop e) as [ip|] eqn:Hp; [|discriminate]. cbn in E. exists (imu_queue e). split; [reflexivity|].
    destruct (e_logger e); [destruct (e_names e)|]; injection E as <-; reflexivity.
  - exists []. injection E as <-. auto.
  - exists []. injection E as <-. unfold LogPop. destruct (e_pending e), (e_logq e); auto.
  - exists []. unfold LogWrite in E. destruct (e_pending e) as [x|]; [|injection E as <-; auto]. apply bind_inv in E. destruct E as (t & _ & E).
    destruct (e_logger e && log_due (e_rate e) (t - e_lastpub e)); [|injection E as <-; auto].
    repeat (apply bind_inv in E; destruct E as (? & _ & E)). injection E as <-. auto.
Qed.
Lemma imu_move_total e o e' tk : imu_move e o e' tk -> imu_queue e ++ (match o with OImu m => [m] | _ => [] end) = tk ++ imu_queue e'.
Proof. destruct o; cbn [imu_move]; rewrite ?app_nil_r; intros [H1 H2]; subst; try rewrite H2; rewrite ?app_nil_r; auto. Qed.
Lemma thm_imu_conserved : forall os e e', est_run e os = Ok e' ->
  exists tks, traced imu_move e os tks /\ imu_queue e ++ imus os = concat tks ++ imu_queue e'.
Proof.
  induction os as [|o os IH]; intros e e' E; cbn in E.
  - injection E as <-. exists []. cbn. rewrite app_nil_r. auto.
  - apply bind_inv in E. destruct E as (e1 & E1 & E). destruct (imu_step_move _ _ _ E1) as [tk M]. destruct (IH _ _ E) as (tks & T & C).
    exists (tk :: tks). split; [exists e1; auto|]. pose proof (imu_move_total _ _ _ _ M) as MT. cbn [concat]. rewrite <- app_assoc, <- C, app_assoc, <- MT, <- app_assoc.
    f_equal. destruct o; reflexivity.
Qed.

(** ** corrections *)
Lemma vel_spin_queue : forall sched c s c' s', vel_spin c s sched = Ok (c', s') -> exists u, vc_queue c ++ concat sched = u ++ vc_queue c' /\ u <> [].
Proof.
  assert (forall c s a b c' s', vel_initialize c s a = Ok (b, c', s') -> vc_queue c' = [] /\ (if b then vc_queue c ++ a <> [] else vc_queue c ++ a = [])) as HI.
  { intros c s a b c' s' E. unfold vel_initialize in E. destruct (vc_queue c ++ a) eqn:Eq; [injection E as <- <- <-; auto|].
    apply bind_inv in E. destruct E as (R & _ & E). apply bind_inv in E. destruct E as (s1 & _ & E). injection E as <- <- <-. split; [reflexivity|discriminate]. }
  induction sched as [|x xs IH]; intros c s c' s' E; cbn [vel_spin] in E; apply bind_inv in E; destruct E as ([[b c1] s1] & E1 & E); apply HI in E1; destruct E1 as [Q1 Q2].
  - destruct b; [|discriminate]. injection E as <- <-. cbn in *. rewrite Q1. cbn. exists (vc_queue c). rewrite app_nil_r in *. auto.
  - cbn [concat hd_batch tl_batch] in *. rewrite app_assoc. destruct b.
    + injection E as <- <-. cbn [vc_queue vc_set_queue]. rewrite Q1. eauto.
    + rewrite Q2. destruct (IH _ _ _ _ E) as (u & U1 & U2). rewrite Q1 in U1. eauto.
Qed.
Lemma leg_spin_queue : forall sched c s c' s', leg_spin c s sched = Ok (c', s') -> exists u, lc_queue c ++ concat sched = u ++ lc_queue c' /\ u <> [].
Proof.
  assert (forall c s a b c' s', leg_initialize c s a = Ok (b, c', s') -> lc_queue c' = [] /\ (if b then lc_queue c ++ a <> [] else lc_queue c ++ a = [])) as HI.
  { intros c s a b c' s' E. unfold leg_initialize in E. destruct (lc_queue c ++ a) eqn:Eq; [injection E as <- <- <-; auto|].
    apply bind_inv in E. destruct E as (w & _ & E). apply bind_inv in E. destruct E as (R & _ & E). apply bind_inv in E. destruct E as (s1 & _ & E). injection E as <- <- <-. split; [reflexivity|discriminate]. }
  induction sched as [|x xs IH]; intros c s c' s' E; cbn [leg_spin] in E; apply bind_inv in E; destruct E as ([[b c1] s1] & E1 & E); apply HI in E1; destruct E1 as [Q1 Q2].
  - destruct b; [|discriminate]. injection E as <- <-. cbn in *. rewrite Q1. cbn. exists (lc_queue c). rewrite app_nil_r in *. auto.
  - cbn [concat hd_batch tl_batch] in *. rewrite app_assoc. destruct b.
    + injection E as <- <-. cbn [lc_queue lc_set_queue]. rewrite Q1. eauto.
    + rewrite Q2. destruct (IH _ _ _ _ E) as (u & U1 & U2). rewrite Q1 in U1. eauto.
Qed.
Definition kind_ok (g : corr_cfg) (c : corr_obj) : Prop := match g, c with GVel _, CVel _ | GLeg _, CLeg _ => True | _, _ => False end.
Lemma nth_arr i l : nth (S i) l no_arr = nth i (tl_arr l) no_arr.
Proof. destruct l; [destruct i|]; reflexivity. Qed.
Lemma hd_arr_nth l : hd_arr l = nth 0 l no_arr.
Proof. destruct l; reflexivity. Qed.
Lemma queue_nth cs i c : nth_error cs i = Some c -> match nth_error cs i with Some c => queued c | None => [] end = queued c.
Proof. intros ->. reflexivity. Qed.
Lemma correct_all_queue : forall cs h s l b cs' h' s' i c, correct_all cs h s l = Ok (b, cs', h', s') -> nth_error cs i = Some c ->
  exists c' tk, nth_error cs' i = Some c' /\ queued c ++ arriving c (nth i l no_arr) = consumed tk ++ queued c'.
Proof.
  induction cs as [|c cs IH]; intros h s l b cs' h' s' i c0 E Hi; cbn [correct_all] in E; [destruct i; discriminate|].
  apply bind_inv in E. destruct E as ([[[b1 c1] h1] s1] & E1 & E). apply bind_inv in E. destruct E as ([[[b2 cs2] h2] s2] & E2 & E). injection E as <- <- <- <-.
  destruct i as [|i]; [|rewrite nth_arr; cbn [nth_error] in *; eapply IH; eauto]. cbn in Hi. injection Hi as <-. rewrite <- hd_arr_nth.
  destruct c as [c|c]; cbn [corr_Correct] in E1.
  - apply bind_inv in E1. destruct E1 as ([[b3 c3] s3] & E1 & E3). injection E3 as <- <- <- <-. destruct (vel_Correct_spec _ _ _ _ _ _ E1) as (_ & f & F & _).
    exists (CVel c3), (lift_fate Datatypes.inl f). split; [reflexivity|]. cbn [queued arriving]. rewrite consumed_lift, <- !map_app, F. reflexivity.
  - apply bind_inv in E1. destruct E1 as ([[[b3 c3] h3] s3] & E1 & E3). injection E3 as <- <- <- <-. destruct (leg_Correct_spec _ _ _ _ _ _ _ _ E1) as (f & F & _).
    exists (CLeg c3), (lift_fate Datatypes.inr f). split; [reflexivity|]. cbn [queued arriving]. rewrite consumed_lift, <- !map_app, F. reflexivity.
Qed.
Lemma spin_all_queue : forall cs s l cs' s' i c, spin_all cs s l = Ok (cs', s') -> nth_error cs i = Some c ->
  exists c' tk, nth_error cs' i = Some c' /\ queued c ++ arriving c (nth i l no_arr) = consumed tk ++ queued c'.
Proof.
  induction cs as [|c cs IH]; intros s l cs' s' i c0 E Hi; cbn [spin_all] in E; [destruct i; discriminate|].
  apply bind_inv in E. destruct E as ([c1 s1] & E1 & E). apply bind_inv in E. destruct E as ([cs2 s2] & E2 & E). injection E as <- <-.
  destruct i as [|i]; [|rewrite nth_arr; cbn [nth_error] in *; eapply IH; eauto]. cbn in Hi. injection Hi as <-. rewrite <- hd_arr_nth.
  destruct c as [c|c]; cbn [corr_spin] in E1; apply bind_inv in E1; destruct E1 as ([c3 s3] & E1 & E3); injection E3 as <- <-.
  - destruct (vel_spin_queue _ _ _ _ _ E1) as (u & U & _). exists (CVel c3), (mkFate (map Datatypes.inl u) None). split; [reflexivity|].
    unfold consumed. cbn [queued arriving f_dropped f_used]. rewrite app_nil_r, <- !map_app, U. reflexivity.
  - destruct (leg_spin_queue _ _ _ _ _ E1) as (u & U & _). exists (CLeg c3), (mkFate (map Datatypes.inr u) None). split; [reflexivity|].
    unfold consumed. cbn [queued arriving f_dropped f_used]. rewrite app_nil_r, <- !map_app, U. reflexivity.
Qed.
Lemma deliver_queue : forall cs l i c, nth_error cs i = Some c -> exists c', nth_error (deliver_all cs l) i = Some c' /\ queued c ++ arriving c (nth i l no_arr) = queued c'.
Proof.
  induction cs as [|c cs IH]; intros l i c0 Hi; [destruct i; discriminate|]. cbn [deliver_all]. destruct i as [|i]; [|rewrite nth_arr; cbn [nth_error] in *; eapply IH; eauto].
  cbn in Hi. injection Hi as <-. rewrite <- hd_arr_nth. destruct c as [c|c]; (eexists; split; [reflexivity|]); cbn; rewrite map_app; reflexivity.
Qed.
Lemma push_queue v m : forall i cs j c, nth_error cs j = Some c ->
  nth_error (upd_nth cs i (fun c => push_corr c v m)) j = Some (if Nat.eqb j i then push_corr c v m else c).
Proof.
  induction i as [|i IH]; intros [|c cs] [|j] c0 H; try discriminate; cbn in *; auto. congruence.
Qed.
Lemma arriving_delivered g c i l : kind_ok g c -> arriving c (nth i l no_arr) = delivered g i (ORunOnce l) /\ arriving c (nth i l no_arr) = delivered g i (OInitState l).
Proof. destruct g, c; cbn; try contradiction; auto. Qed.

Lemma corr_step_move g i e o e' c : est_step e o = Ok e' -> nth_error (e_corrs e) i = Some c -> kind_ok g c -> exists tk, corr_move g i e o e' tk.
Proof.
  intros E Hi HK. set (none := mkFate (@nil reading) None).
  assert (forall cs', e_corrs e' = cs' -> nth_error cs' i = nth_error (e_corrs e) i -> delivered g i o = [] -> queue_of e i ++ delivered g i o = consumed none ++ queue_of e' i) as HS.
  { intros cs' E1 E2 ->. unfold queue_of. rewrite E1, E2, app_nil_r. reflexivity. }
  destruct o; cbn [est_step] in E; unfold corr_move.
  - exists none. split; [|reflexivity]. destruct (e_prop e) as [ip|]; [|discriminate]. injection E as <-. apply HS with (e_corrs e); auto. destruct g; reflexivity.
  - exists none. split; [|reflexivity]. injection E as <-. unfold queue_of. cbn [e_corrs e_set_corrs e_set]. rewrite (push_queue [m] [] i0 _ _ _ Hi), Hi.
    destruct g, c; cbn in HK; try contradiction; cbn [delivered].
    + destruct (Nat.eqb_spec i i0); cbn; [rewrite map_app; reflexivity|rewrite app_nil_r; reflexivity].
    + destruct (Nat.eqb i i0); cbn; rewrite ?map_app, ?app_nil_r; reflexivity.
  - exists none. split; [|reflexivity]. injection E as <-. unfold queue_of. cbn [e_corrs e_set_corrs e_set]. rewrite (push_queue [] [m] i0 _ _ _ Hi), Hi.
    destruct g, c; cbn in HK; try contradiction; cbn [delivered].
    + destruct (Nat.eqb i i0); cbn; rewrite ?map_app, ?app_nil_r; reflexivity.
    + destruct (Nat.eqb_spec i i0); cbn; [rewrite map_app; reflexivity|rewrite app_nil_r; reflexivity].
  - exists none. split; [|reflexivity]. unfold InitBias in E. destruct (e_prop e) as [ip|]; [|discriminate]. cbn in E. apply bind_inv in E. destruct E as (ip' & _ & E). injection E as <-.
    apply HS with (e_corrs e); auto. destruct g; reflexivity.
  - destruct (arriving_delivered g c i l HK) as [_ AD]. unfold InitState in E. destruct (e_prop e) as [ip|]; [|discriminate]. cbn in E. apply bind_inv in E. destruct E as ([[b ip'] s] & _ & E). destruct b; cbn [negb] in E.
    + apply bind_inv in E. destruct E as ([cs s1] & E2 & E). repeat (apply bind_inv in E; destruct E as (? & _ & E)). injection E as <-.
      destruct (spin_all_queue _ _ _ _ _ i c E2 Hi) as (c' & tk & N & Q). exists tk. split; [|exact I]. unfold queue_of. cbn [e_corrs e_set]. rewrite Hi, N, <- AD. exact Q.
    + injection E as <-. destruct (deliver_queue _ l i c Hi) as (c' & N & Q). exists none. split; [|exact I]. unfold queue_of. cbn [e_corrs e_set]. rewrite Hi, N, <- AD. exact Q.
  - destruct (arriving_delivered g c i l HK) as [AD _]. unfold RunOnce in E. destruct (e_prop e) as [ip|]; [|discriminate]. cbn in E. apply bind_inv in E. destruct E as ([[b ip'] s] & _ & E).
    apply bind_inv in E. destruct E as ([[[b2 cs] h] s1] & E2 & E). destruct (correct_all_queue _ _ _ _ _ _ _ _ i c E2 Hi) as (c' & tk & N & Q).
    exists tk. split; [|exact I]. unfold queue_of. rewrite Hi, <- AD, Q.
    destruct (b || b2); [apply bind_inv in E; destruct E as (s2 & _ & E)|]; injection E as <-; cbn [e_corrs e_set]; rewrite N; reflexivity.
  - exists (mkFate (queue_of e i) None). unfold Clear in E. destruct (e_prop e) as [ip|]; [|discriminate]. cbn in E.
    assert (e_corrs e' = map corr_clear (e_corrs e)) as Ec by (destruct (e_logger e); [destruct (e_names e)|]; injection E as <-; reflexivity).
    assert (queue_of e' i = []) as Eq by (unfold queue_of; rewrite Ec, nth_error_map, Hi; destruct c; reflexivity).
    split; [|auto]. rewrite Eq. unfold consumed. cbn. rewrite !app_nil_r. destruct g; cbn; rewrite app_nil_r; reflexivity.
  - exists none. split; [|reflexivity]. injection E as <-. apply HS with (e_corrs e); auto. destruct g; reflexivity.
  - exists none. split; [|reflexivity]. injection E as <-. apply HS with (e_corrs e); auto; [unfold LogPop; destruct (e_pending e), (e_logq e); reflexivity|destruct g; reflexivity].
  - exists none. split; [|reflexivity]. apply HS with (e_corrs e); auto; [|destruct g; reflexivity].
    unfold LogWrite in E. destruct (e_pending e) as [x|]; [|injection E as <-; auto]. apply bind_inv in E. destruct E as (t & _ & E).
    destruct (e_logger e && log_due (e_rate e) (t - e_lastpub e)); [|injection E as <-; auto].
    repeat (apply bind_inv in E; destruct E as (? & _ & E)). injection E as <-. auto.
Qed.
Lemma kind_step g i e o e' c : est_step e o = Ok e' -> nth_error (e_corrs e) i = Some c -> kind_ok g c -> exists c', nth_error (e_corrs e') i = Some c' /\ kind_ok g c'.
Proof.
  intros E Hi HK. destruct (step_fixed _ _ _ E) as (_ & F & _). pose proof (f_equal (fun l => nth_error l i) F) as Fi. cbn in Fi. rewrite !nth_error_map, Hi in Fi.
  destruct (nth_error (e_corrs e') i) as [c'|]; [|discriminate]. cbn in Fi. injection Fi as Fi. exists c'. split; [reflexivity|].
  destruct g, c, c'; cbn in HK, Fi; try contradiction; try discriminate; exact I.
Qed.
Lemma corr_conserved g i : forall os e e' c, est_run e os = Ok e' -> nth_error (e_corrs e) i = Some c -> kind_ok g c ->
  exists tks, traced (corr_move g i) e os tks /\ queue_of e i ++ flat_map (delivered g i) os = flat_map consumed tks ++ queue_of e' i.
Proof.
  induction os as [|o os IH]; intros e e' c E Hi HK; cbn in E.
  - injection E as <-. exists []. cbn. rewrite app_nil_r. auto.
  - apply bind_inv in E. destruct E as (e1 & E1 & E). destruct (corr_step_move g i _ _ _ c E1 Hi HK) as [tk M]. destruct (kind_step g i _ _ _ c E1 Hi HK) as (c1 & Hi1 & HK1).
    destruct (IH _ _ _ E Hi1 HK1) as (tks & T & C). exists (tk :: tks). split; [exists e1; auto|]. cbn [flat_map]. rewrite <- app_assoc, <- C, app_assoc, (proj1 M), <- app_assoc. reflexivity.
Qed.
Lemma build_nth f i g : nth_error (f_corrs f) i = Some g -> exists c, nth_error (e_corrs (build f)) i = Some c /\ kind_ok g c /\ queued c = [].
Proof.
  intros H. rewrite EstSafe.build_eq. cbn. rewrite nth_error_map, H. eexists. split; [reflexivity|]. destruct g; cbn; auto.
Qed.
Lemma thm_conserved f os e : est_run (build f) os = Ok e ->
  (exists tks, traced imu_move (build f) os tks /\ imus os = concat tks ++ imu_queue e) /\
  (forall i g, nth_error (f_corrs f) i = Some g -> exists tks, traced (corr_move g i) (build f) os tks /\
     flat_map (delivered g i) os = flat_map consumed tks ++ queue_of e i).
Proof.
  intros E. split.
  - destruct (thm_imu_conserved _ _ _ E) as (tks & T & C). exists tks. split; [exact T|]. rewrite EstSafe.build_eq in C. exact C.
  - intros i g Hg. destruct (build_nth f i g Hg) as (c & Hi & HK & Hq). destruct (corr_conserved g i _ _ _ c E Hi HK) as (tks & T & C). exists tks. split; [exact T|].
    unfold queue_of in C at 1. rewrite Hi, Hq in C. exact C.
Qed.
