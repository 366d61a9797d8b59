(** Proofs: C80, readers do not disturb the filter; arriving before or during a call. *)
From Coq Require Import Reals ZArith List Bool Arith Lia.
From Verif Require Import Res Vec3 Mat RobotState Imu Propagation Queue VelCorr LegCorr Estimator SpecEst ConvFilter SpecConv SpecSched Quat Sched.
Import ListNotations.
Local Open Scope R_scope.

(** ** Readers *)
Definition er (e : est) : est := e_log (e_set_out e []) [] None 0 [].
Lemma er_same a b : er a = er b <-> same_filter a b.
Proof.
  split.
  - intros H. constructor; [apply (f_equal e_err) in H|apply (f_equal e_state) in H|apply (f_equal e_heap) in H|apply (f_equal e_prop) in H|apply (f_equal e_corrs) in H|apply (f_equal e_enabled) in H|apply (f_equal e_logger) in H|apply (f_equal e_rate) in H|apply (f_equal e_names) in H|apply (f_equal e_count) in H|apply (f_equal e_files) in H|apply (f_equal e_opened) in H|apply (f_equal e_rot_cov) in H|apply (f_equal e_vel_cov) in H|apply (f_equal e_pos_cov) in H|apply (f_equal e_slip) in H]; exact H.
  - intros H. destruct H, a, b. cbn in *. subst. reflexivity.
Qed.
Lemma skip_app {A} (l k : list A) : skipn (length l) (l ++ k) = k.
Proof. rewrite skipn_app, skipn_all, Nat.sub_diag. reflexivity. Qed.
Lemma er_step e o e' : is_reader o = false -> est_step e o = Ok e' -> exists f, est_step (er e) o = Ok f /\ er f = er e' /\ e_out f = pub1 e e'.
Proof.
  intros Hr. destruct o; try discriminate; cbn [est_step].
  - cbn [e_prop er e_log e_set_out e_set]. destruct (e_prop e); [|discriminate]. cbn [of_opt bind]. intros [= <-]. eexists. split; [reflexivity|]. split; [reflexivity|]. unfold pub1. cbn. rewrite skip_same. reflexivity.
  - intros [= <-]. eexists. split; [reflexivity|]. split; [reflexivity|]. unfold pub1. cbn. rewrite skip_same. reflexivity.
  - intros [= <-]. eexists. split; [reflexivity|]. split; [reflexivity|]. unfold pub1. cbn. rewrite skip_same. reflexivity.
  - unfold InitBias. cbn [e_prop er e_log e_set_out e_set]. destruct (e_prop e) as [ip|]; [|discriminate]. cbn [of_opt bind]. destruct (InitImuBias ip) as [ip'|]; [|discriminate]. cbn [bind]. intros [= <-]. eexists. split; [reflexivity|]. split; [reflexivity|]. unfold pub1. cbn. rewrite skip_same. reflexivity.
  - unfold InitState. cbn [e_prop er e_log e_set_out e_set e_state e_corrs e_rot_cov e_vel_cov e_pos_cov]. destruct (e_prop e) as [ip|]; [|discriminate]. cbn [of_opt bind].
    destruct (set_initial_state ip (e_state e)) as [[[b ip'] s]|]; [|discriminate]. cbn [bind]. destruct b; cbn [negb].
    + destruct (spin_all (e_corrs e) s l) as [[cs s1]|]; [|discriminate]. cbn [bind].
      repeat (match goal with |- bind ?x _ = _ -> _ => destruct x; [cbn [bind]|discriminate] end). intros [= <-]. eexists. split; [reflexivity|]. split; [reflexivity|]. unfold pub1. cbn. rewrite skip_app. reflexivity.
    + intros [= <-]. eexists. split; [reflexivity|]. split; [reflexivity|]. unfold pub1. cbn. rewrite skip_same. reflexivity.
  - unfold RunOnce. cbn [e_prop er e_log e_set_out e_set e_state e_corrs e_heap e_slip]. destruct (e_prop e) as [ip|]; [|discriminate]. cbn [of_opt bind].
    destruct (Propagate ip (e_state e)) as [[[b ip'] s]|]; [|discriminate]. cbn [bind].
    destruct (correct_all (e_corrs e) (e_heap e) s l) as [[[[b2 cs] h] s2]|]; [|discriminate]. cbn [bind]. destruct (b || b2).
    + destruct (if e_slip e then _ else _) as [s3|]; [|discriminate]. cbn [bind]. intros [= <-]. eexists. split; [reflexivity|]. split; [reflexivity|]. unfold pub1. cbn. rewrite skip_app. reflexivity.
    + intros [= <-]. eexists. split; [reflexivity|]. split; [reflexivity|]. unfold pub1. cbn. rewrite skip_same. reflexivity.
  - unfold Clear. cbn [e_prop er e_log e_set_out e_set e_logger e_names e_count e_state e_corrs e_heap]. destruct (e_prop e) as [ip|]; [|discriminate]. cbn [of_opt bind].
    destruct (e_logger e) eqn:El.
    + destruct (e_names e) as [n1 n2] eqn:En.
      match goal with |- Ok (e_reopen _ ?n ?fl) = _ -> _ => generalize n fl; intros k fl' end.
      intros E. assert (e' = e_reopen (e_set e (RS_clear (e_state e)) (e_heap e) (Some (IP_clear ip)) (map corr_clear (e_corrs e)) false [] []) k fl') as -> by congruence. clear E.
      eexists. split; [reflexivity|]. split; [reflexivity|]. unfold pub1. cbn [e_out e_reopen e_set]. rewrite skipn_nil. reflexivity.
    + intros E. assert (e' = e_set e (RS_clear (e_state e)) (e_heap e) (Some (IP_clear ip)) (map corr_clear (e_corrs e)) false [] []) as -> by congruence. clear E.
      eexists. split; [reflexivity|]. split; [reflexivity|]. unfold pub1. cbn [e_out e_set]. rewrite skipn_nil. reflexivity.
Qed.
Lemma er_reader e o e' : is_reader o = true -> est_step e o = Ok e' -> er e' = er e /\ pub1 e e' = [].
Proof.
  intros Hr. destruct o; try discriminate; cbn [est_step].
  - intros [= <-]. split; [reflexivity|]. unfold pub1. cbn. apply skipn_all2. destruct (e_out e); cbn; lia.
  - unfold LogPop. intros [= <-]. unfold pub1. destruct (e_pending e); [rewrite skip_same; auto|]. destruct (e_logq e); [rewrite skip_same; auto|]. cbn. rewrite skip_same. split; reflexivity.
  - intros E. rewrite (lw_shape _ _ E). split; [reflexivity|]. unfold pub1. cbn. apply skip_same.
Qed.
Lemma er_allowed a b o : er a = er b -> allowed a o <-> allowed b o.
Proof. intros H. apply er_same in H. destruct H. unfold allowed, BiasInitialized. rewrite sf_prop, sf_enabled. reflexivity. Qed.
Lemma sim_step a b o a' : er a = er b -> is_reader o = false -> est_step a o = Ok a' -> exists b', est_step b o = Ok b' /\ er b' = er a' /\ pub1 b b' = pub1 a a'.
Proof.
  intros H Hr E. destruct (er_step a o a' Hr E) as (f & F1 & F2 & F3). rewrite H in F1.
  (* the step from b succeeds because the one from er b does *)
  assert (forall e g, est_step (er e) o = Ok g -> exists e', est_step e o = Ok e') as K.
  { clear - Hr. intros e g. destruct o; try discriminate Hr; cbn [est_step]; try (intros _; eexists; reflexivity).
    - cbn [e_prop er e_log e_set_out e_set]. destruct (e_prop e); [|discriminate]. cbn. eauto.
    - unfold InitBias. cbn [e_prop er e_log e_set_out e_set]. destruct (e_prop e) as [ip|]; [|discriminate]. cbn [of_opt bind]. destruct (InitImuBias ip); [|discriminate]. cbn. eauto.
    - unfold InitState. cbn [e_prop er e_log e_set_out e_set e_state e_corrs e_rot_cov e_vel_cov e_pos_cov]. destruct (e_prop e) as [ip|]; [|discriminate]. cbn [of_opt bind].
      destruct (set_initial_state ip (e_state e)) as [[[b ip'] s]|]; [|discriminate]. cbn [bind]. destruct b; cbn [negb]; [|eauto]. destruct (spin_all (e_corrs e) s l) as [[cs s1]|]; [|discriminate]. cbn [bind].
      repeat (match goal with |- bind ?x _ = _ -> _ => destruct x; [cbn [bind]|discriminate] end). eauto.
    - unfold RunOnce. cbn [e_prop er e_log e_set_out e_set e_state e_corrs e_heap e_slip]. destruct (e_prop e) as [ip|]; [|discriminate]. cbn [of_opt bind].
      destruct (Propagate ip (e_state e)) as [[[b ip'] s]|]; [|discriminate]. cbn [bind]. destruct (correct_all (e_corrs e) (e_heap e) s l) as [[[[b2 cs] h] s2]|]; [|discriminate]. cbn [bind]. destruct (b || b2); [|eauto].
      destruct (if e_slip e then _ else _) as [s3|]; [|discriminate]. cbn [bind]. eauto.
    - unfold Clear. cbn [e_prop er e_log e_set_out e_set]. destruct (e_prop e) as [ip|]; [|discriminate]. cbn [of_opt bind e_set e_logger e_names e_count]. destruct (e_logger e); [destruct (e_names e)|]; eauto.
  }
  destruct (K b f F1) as [b' Eb]. exists b'. split; [exact Eb|]. destruct (er_step b o b' Hr Eb) as (f' & G1 & G2 & G3). rewrite F1 in G1. injection G1 as <-. split; congruence.
Qed.
Lemma exec_readers : forall os a b r pub, er a = er b -> exec a os r pub -> exists r', exec b (without_readers os) r' pub /\ er r' = er r.
Proof.
  induction os as [|o os IH]; intros a b r pub H X.
  - destruct X as [-> ->]. exists b. split; [split; reflexivity|congruence].
  - cbn [exec] in X. destruct X as (a1 & pub' & A & S & -> & X). unfold without_readers. cbn [filter]. destruct (is_reader o) eqn:Hr; cbn [negb].
    + destruct (er_reader _ _ _ Hr S) as [E1 E2]. rewrite E2. cbn [app]. apply (IH a1); [congruence|exact X].
    + destruct (sim_step a b o a1 H Hr S) as (b1 & Sb & Eb & Pb). destruct (IH a1 b1 r pub' (eq_sym Eb) X) as (r' & X' & Er). exists r'. split; [|exact Er]. cbn [exec]. exists b1, pub'. split; [apply (er_allowed a b o H), A|]. split; [exact Sb|]. split; [rewrite Pb; reflexivity|exact X'].
Qed.
Lemma imus_readers os : imus (without_readers os) = imus os.
Proof. unfold without_readers. induction os as [|o os IH]; [reflexivity|]. destruct o; cbn; rewrite ?IH; reflexivity. Qed.
Lemma thm_readers f os e : reachable f os e -> exists e', reachable f (without_readers os) e' /\ same_filter e' e /\ published any_op (build f) (without_readers os) = published any_op (build f) os.
Proof.
  intros (HC & HI & HP & HR). assert (exec (build f) os e (published any_op (build f) os)) as X by (apply exec_iff; auto).
  destruct (exec_readers _ _ (build f) _ _ eq_refl X) as (e' & X' & E). apply exec_iff in X'. destruct X' as (X1 & X2 & X3). exists e'. split; [|split; [apply er_same, E|exact X3]].
  split; [exact HC|]. split; [rewrite imus_readers; exact HI|]. split; assumption.
Qed.

(** ** A producer or reader that is not starved commutes with RunOnce *)
Lemma run_imu e m l : imu_queue e <> [] -> two e (OImu m) (ORunOnce l) = two e (ORunOnce l) (OImu m).
Proof.
  intros Hq. unfold imu_queue in Hq. unfold two. cbn [est_step]. destruct (e_prop e) as [ip|] eqn:Ep; [|contradiction]. cbn [of_opt bind]. unfold RunOnce. rewrite Ep. cbn [e_prop e_set_prop e_set e_state of_opt bind].
  unfold Propagate. cbn [ip_queue set_queue]. destruct (ip_queue ip) as [|x q] eqn:Eq; [contradiction|]. cbn [app]. change (ip_prev (set_queue ip (x :: q ++ [m]))) with (ip_prev ip). destruct (ip_prev ip) as [pm|]; [|reflexivity]. cbn [of_opt bind].
  match goal with |- bind (bind (propagate_with ?a ?b ?c) _) _ = bind (bind (bind (propagate_with ?a' ?b ?c) _) _) _ => change (propagate_with a b c) with (propagate_with a' b c); destruct (propagate_with a' b c) as [s|]; [|reflexivity] end.
  cbn [bind e_corrs e_heap e_set_prop e_set]. destruct (correct_all (e_corrs e) (e_heap e) s l) as [[[[b2 cs] h] s2]|]; [|reflexivity]. cbn [bind orb e_slip].
  destruct (if e_slip e then _ else _) as [s3|]; reflexivity.
Qed.
Lemma run_popout e l : e_out e <> [] -> two e OPopOut (ORunOnce l) = two e (ORunOnce l) OPopOut.
Proof.
  intros Hq. unfold two. cbn [est_step bind]. unfold RunOnce. cbn [e_prop e_set_out e_set e_state e_corrs e_heap e_slip]. destruct (e_prop e) as [ip|]; [|reflexivity]. cbn [of_opt bind].
  destruct (Propagate ip (e_state e)) as [[[b ip'] s]|]; [|reflexivity]. cbn [bind]. destruct (correct_all (e_corrs e) (e_heap e) s l) as [[[[b2 cs] h] s2]|]; [|reflexivity]. cbn [bind]. destruct (b || b2); [|reflexivity].
  destruct (if e_slip e then _ else _) as [s3|]; [|reflexivity]. cbn [bind]. unfold e_set_out, e_set; cbn. destruct (e_out e); [contradiction|reflexivity].
Qed.
Lemma run_logpop e l : e_logq e <> [] -> two e OLogPop (ORunOnce l) = two e (ORunOnce l) OLogPop.
Proof.
  intros Hq. unfold two. cbn [est_step bind]. unfold LogPop. destruct (e_pending e) as [p|] eqn:Ep.
  - destruct (RunOnce e l) as [e1|] eqn:E1; [|reflexivity]. cbn [bind]. destruct (quiet_keeps e (ORunOnce l) e1 eq_refl E1) as (K1 & _). rewrite K1, Ep. reflexivity.
  - destruct (e_logq e) as [|x q] eqn:Eq; [contradiction|]. unfold RunOnce. cbn [e_prop e_log e_state e_corrs e_heap e_slip e_logger e_logq]. destruct (e_prop e) as [ip|]; [|reflexivity]. cbn [of_opt bind].
    destruct (Propagate ip (e_state e)) as [[[b ip'] s]|]; [|reflexivity]. cbn [bind]. destruct (correct_all (e_corrs e) (e_heap e) s l) as [[[[b2 cs] h] s2]|]; [|reflexivity]. cbn [bind]. destruct (b || b2).
    + destruct (if e_slip e then _ else _) as [s3|]; [|reflexivity]. cbn [bind e_pending e_set e_logq]. rewrite Ep, Eq. destruct (e_logger e); reflexivity.
    + cbn [bind e_pending e_set e_logq]. rewrite Ep, Eq. reflexivity.
Qed.
Lemma thm_not_starved e o l r : not_starved e o -> est_run e [o; ORunOnce l] = Ok r <-> est_run e [ORunOnce l; o] = Ok r.
Proof.
  intros H. assert (forall a b, est_run e [a; b] = Ok r <-> okof (two e a b) = Some r) as K.
  { intros a b. unfold est_run, two. cbn [foldM]. destruct (est_step e a) as [e1|]; cbn [bind okof]; [|split; discriminate]. destruct (est_step e1 b); cbn [bind okof]; split; congruence. }
  rewrite !K. destruct o; try contradiction; cbn [not_starved] in H.
  - rewrite run_imu by exact H. reflexivity.
  - rewrite run_popout by exact H. reflexivity.
  - rewrite run_logpop by exact H. reflexivity.
  - rewrite <- swap_write by reflexivity. reflexivity.
Qed.

(** ** Delivered just before a call = delivered before its first critical section *)
Lemma hd_add {A} (x : A) l : hd_batch (add_batch x l) = x :: hd_batch l. Proof. destruct l; reflexivity. Qed.
Lemma tl_add {A} (x : A) l : tl_batch (add_batch x l) = tl_batch l. Proof. destruct l; reflexivity. Qed.
Lemma concat_add {A} (x : A) l : concat (add_batch x l) = x :: concat l. Proof. destruct l; reflexivity. Qed.
Lemma app_cons_assoc {A} (q : list A) x l : (q ++ [x]) ++ l = q ++ x :: l. Proof. rewrite <- app_assoc. reflexivity. Qed.
Lemma vel_Correct_add c s m l : vel_Correct (vc_set_queue c (vc_queue c ++ [m])) s l = vel_Correct c s (add_batch m l).
Proof. unfold vel_Correct. rewrite hd_add, tl_add. cbn [vc_queue vc_set_queue]. rewrite app_cons_assoc. reflexivity. Qed.
Lemma leg_Correct_add c h s m l : leg_Correct (lc_set_queue c (lc_queue c ++ [m])) h s l = leg_Correct c h s (add_batch m l).
Proof. unfold leg_Correct. rewrite hd_add, tl_add. cbn [lc_queue lc_set_queue]. rewrite app_cons_assoc. reflexivity. Qed.
Lemma vel_spin_add c s m l : vel_spin (vc_set_queue c (vc_queue c ++ [m])) s l = vel_spin c s (add_batch m l).
Proof.
  assert (vel_initialize (vc_set_queue c (vc_queue c ++ [m])) s (hd_batch l) = vel_initialize c s (hd_batch (add_batch m l))) as E.
  { unfold vel_initialize. rewrite hd_add. cbn [vc_queue vc_set_queue]. rewrite app_cons_assoc. reflexivity. }
  assert (forall b c' s', vel_initialize c s (hd_batch (add_batch m l)) = Ok (b, c', s') -> b = true) as T.
  { intros b c' s'. unfold vel_initialize. rewrite hd_add. destruct (vc_queue c ++ m :: hd_batch l) eqn:Q; [destruct (vc_queue c); discriminate|]. destruct (get_rotation s); cbn [bind]; [|discriminate]. destruct (set_velocity s _); cbn [bind]; [|discriminate]. congruence. }
  destruct l as [|b bs]; cbn [vel_spin add_batch] in *.
  - cbn [hd_batch] in *. rewrite E. destruct (vel_initialize c s [m]) as [[[b' c'] s']|]; [|reflexivity]. cbn [bind]. rewrite (T _ _ _ eq_refl). reflexivity.
  - cbn [hd_batch] in *. rewrite E. destruct (vel_initialize c s (m :: b)) as [[[b' c'] s']|]; [|reflexivity]. cbn [bind]. rewrite (T _ _ _ eq_refl). reflexivity.
Qed.
Lemma leg_spin_add c s m l : leg_spin (lc_set_queue c (lc_queue c ++ [m])) s l = leg_spin c s (add_batch m l).
Proof.
  assert (leg_initialize (lc_set_queue c (lc_queue c ++ [m])) s (hd_batch l) = leg_initialize c s (hd_batch (add_batch m l))) as E.
  { unfold leg_initialize. rewrite hd_add. cbn [lc_queue lc_set_queue]. rewrite app_cons_assoc. reflexivity. }
  assert (forall b c' s', leg_initialize c s (hd_batch (add_batch m l)) = Ok (b, c', s') -> b = true) as T.
  { intros b c' s'. unfold leg_initialize. rewrite hd_add. destruct (lc_queue c ++ m :: hd_batch l) eqn:Q; [destruct (lc_queue c); discriminate|]. destruct (get_body_angular_velocity s); cbn [bind]; [|discriminate]. destruct (get_rotation s); cbn [bind]; [|discriminate]. destruct (set_velocity s _); cbn [bind]; [|discriminate]. congruence. }
  destruct l as [|b bs]; cbn [leg_spin add_batch] in *.
  - cbn [hd_batch] in *. rewrite E. destruct (leg_initialize c s [m]) as [[[b' c'] s']|]; [|reflexivity]. cbn [bind]. rewrite (T _ _ _ eq_refl). reflexivity.
  - cbn [hd_batch] in *. rewrite E. destruct (leg_initialize c s (m :: b)) as [[[b' c'] s']|]; [|reflexivity]. cbn [bind]. rewrite (T _ _ _ eq_refl). reflexivity.
Qed.
(** one step at the front of the list of corrections, generically *)
Definition fill (x : vmeas + lmeas) (c : corr_obj) : corr_obj := match x with Datatypes.inl m => push_corr c [m] [] | Datatypes.inr m => push_corr c [] [m] end.
Definition fill_arr (x : vmeas + lmeas) (a : arrivals) : arrivals := match x with Datatypes.inl m => add_arr_vel m a | Datatypes.inr m => add_arr_leg m a end.
Lemma vc_self c : vc_set_queue c (vc_queue c ++ []) = c. Proof. rewrite app_nil_r. destruct c; reflexivity. Qed.
Lemma lc_self c : lc_set_queue c (lc_queue c ++ []) = c. Proof. rewrite app_nil_r. destruct c; reflexivity. Qed.
Lemma corr_Correct_fill x c h s a : corr_Correct (fill x c) h s a = corr_Correct c h s (fill_arr x a).
Proof.
  destruct x as [m|m], c as [c|c]; cbn [fill push_corr fill_arr add_arr_vel add_arr_leg corr_Correct a_vel a_leg].
  - rewrite vel_Correct_add. reflexivity.
  - rewrite lc_self. reflexivity.
  - rewrite vc_self. reflexivity.
  - rewrite leg_Correct_add. reflexivity.
Qed.
Lemma corr_spin_fill x c s a : corr_spin (fill x c) s a = corr_spin c s (fill_arr x a).
Proof.
  destruct x as [m|m], c as [c|c]; cbn [fill push_corr fill_arr add_arr_vel add_arr_leg corr_spin a_vel a_leg].
  - rewrite vel_spin_add. reflexivity.
  - rewrite lc_self. reflexivity.
  - rewrite vc_self. reflexivity.
  - rewrite leg_spin_add. reflexivity.
Qed.
Lemma push_fill x c a : push_corr (fill x c) (concat (a_vel a)) (concat (a_leg a)) = push_corr c (concat (a_vel (fill_arr x a))) (concat (a_leg (fill_arr x a))).
Proof.
  destruct x as [m|m], c as [c|c]; cbn [fill push_corr fill_arr add_arr_vel add_arr_leg a_vel a_leg vc_queue lc_queue vc_set_queue lc_set_queue]; rewrite ?concat_add, ?app_cons_assoc, ?app_nil_r; reflexivity.
Qed.
Lemma correct_all_fill x : forall cs i h s l, correct_all (upd_nth cs i (fill x)) h s l = correct_all cs h s (at_arr i (fill_arr x) l).
Proof.
  induction cs as [|c cs IH]; intros [|i] h s l; cbn [upd_nth correct_all at_arr]; try reflexivity; cbn [hd_arr tl_arr].
  - rewrite corr_Correct_fill. reflexivity.
  - destruct (corr_Correct c h s (hd_arr l)) as [[[[b c'] h'] s']|]; [|reflexivity]. cbn [bind]. rewrite IH. reflexivity.
Qed.
Lemma spin_all_fill x : forall cs i s l, spin_all (upd_nth cs i (fill x)) s l = spin_all cs s (at_arr i (fill_arr x) l).
Proof.
  induction cs as [|c cs IH]; intros [|i] s l; cbn [upd_nth spin_all at_arr]; try reflexivity; cbn [hd_arr tl_arr].
  - rewrite corr_spin_fill. reflexivity.
  - destruct (corr_spin c s (hd_arr l)) as [[c' s']|]; [|reflexivity]. cbn [bind]. rewrite IH. reflexivity.
Qed.
Lemma deliver_all_fill x : forall cs i l, deliver_all (upd_nth cs i (fill x)) l = deliver_all cs (at_arr i (fill_arr x) l).
Proof.
  induction cs as [|c cs IH]; intros [|i] l; cbn [upd_nth deliver_all at_arr]; try reflexivity; cbn [hd_arr tl_arr].
  - rewrite push_fill. reflexivity.
  - rewrite IH. reflexivity.
Qed.
Lemma upd_ext {A} (f g : A -> A) : (forall x, f x = g x) -> forall l i, upd_nth l i f = upd_nth l i g.
Proof. intros H. induction l as [|x l IH]; intros [|i]; cbn; rewrite ?H, ?IH; reflexivity. Qed.
Lemma run_fill e x i l : RunOnce (e_set_corrs e (upd_nth (e_corrs e) i (fill x))) l = RunOnce e (at_arr i (fill_arr x) l).
Proof.
  unfold RunOnce. cbn [e_prop e_set_corrs e_set e_state e_corrs e_heap e_slip]. destruct (e_prop e) as [ip|]; [|reflexivity]. cbn [of_opt bind]. destruct (Propagate ip (e_state e)) as [[[b ip'] s]|]; [|reflexivity]. cbn [bind]. rewrite correct_all_fill. reflexivity.
Qed.
Lemma init_fill e x i l : InitState (e_set_corrs e (upd_nth (e_corrs e) i (fill x))) l = InitState e (at_arr i (fill_arr x) l).
Proof.
  unfold InitState. cbn [e_prop e_set_corrs e_set e_state e_corrs e_heap e_rot_cov e_vel_cov e_pos_cov]. destruct (e_prop e) as [ip|]; [|reflexivity]. cbn [of_opt bind]. destruct (set_initial_state ip (e_state e)) as [[[b ip'] s]|]; [|reflexivity]. cbn [bind]. rewrite spin_all_fill, deliver_all_fill. reflexivity.
Qed.
Lemma thm_early_vel e i m l : est_run e [OVel i m; ORunOnce l] = est_run e [ORunOnce (at_arr i (add_arr_vel m) l)] /\ est_run e [OVel i m; OInitState l] = est_run e [OInitState (at_arr i (add_arr_vel m) l)].
Proof. unfold est_run. cbn [foldM est_step bind]. pose proof (run_fill e (Datatypes.inl m) i l) as E1. pose proof (init_fill e (Datatypes.inl m) i l) as E2. change (fill_arr (Datatypes.inl m)) with (add_arr_vel m) in E1, E2. rewrite <- E1, <- E2. split; reflexivity. Qed.
Lemma thm_early_leg e i m l : est_run e [OLeg i m; ORunOnce l] = est_run e [ORunOnce (at_arr i (add_arr_leg m) l)] /\ est_run e [OLeg i m; OInitState l] = est_run e [OInitState (at_arr i (add_arr_leg m) l)].
Proof. unfold est_run. cbn [foldM est_step bind]. pose proof (run_fill e (Datatypes.inr m) i l) as E1. pose proof (init_fill e (Datatypes.inr m) i l) as E2. change (fill_arr (Datatypes.inr m)) with (add_arr_leg m) in E1, E2. rewrite <- E1, <- E2. split; reflexivity. Qed.
