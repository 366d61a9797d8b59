(** Proofs: C80, the interleaving of callbacks and background threads does not matter. *)
From Coq Require Import Reals ZArith List Bool Arith Lia.
From Verif Require Import Res Vec3 Mat RobotState Imu Propagation Queue VelCorr LegCorr Estimator SpecEst ConvFilter SpecConv SpecSched Quat.
Import ListNotations.

Definition indep (o1 o2 : op) : Prop := forall r, uses r o1 = true -> uses r o2 = false.
Definition two (e : est) (o1 o2 : op) : res est := let* e1 := est_step e o1 in est_step e1 o2.
Definition okof {A} (x : res A) : option A := match x with Ok a => Some a | Fail _ => None end.

Lemma indep_sym a b : indep a b -> indep b a.
Proof. intros H r Hb. destruct (uses r a) eqn:E; [|reflexivity]. rewrite (H r E) in Hb. discriminate. Qed.

(** ** Commuting pairs *)
Lemma upd_swap {A} (f g : A -> A) : (forall x, f (g x) = g (f x)) -> forall l i j, upd_nth (upd_nth l i f) j g = upd_nth (upd_nth l j g) i f.
Proof. intros H. induction l as [|x l IH]; intros [|i] [|j]; cbn; try reflexivity; f_equal; auto. Qed.
Lemma upd_swap_ne {A} (f g : A -> A) : forall l i j, i <> j -> upd_nth (upd_nth l i f) j g = upd_nth (upd_nth l j g) i f.
Proof. induction l as [|x l IH]; intros [|i] [|j] H; cbn; try reflexivity; try (exfalso; apply H; reflexivity). f_equal. apply IH. congruence. Qed.
Lemma push_swap v1 l1 v2 l2 c : (v1 = [] \/ v2 = []) -> (l1 = [] \/ l2 = []) -> push_corr (push_corr c v1 l1) v2 l2 = push_corr (push_corr c v2 l2) v1 l1.
Proof.
  intros Hv Hl. destruct c as [c|c]; cbn [push_corr vc_queue lc_queue vc_set_queue lc_set_queue]; f_equal; unfold vc_set_queue, lc_set_queue; cbn; f_equal; rewrite <- !app_assoc; f_equal.
  - destruct Hv; subst; rewrite ?app_nil_r; reflexivity.
  - destruct Hl; subst; rewrite ?app_nil_r; reflexivity.
Qed.
(** updates by log steps *)
Lemma log_write_eq e : LogWrite e = match e_pending e with
  | None => Ok e
  | Some x => rmap (fun '(t, ls) => e_log e (e_logq e) None t (e_lines e ++ ls))
     (let* t := get_time x in
      if e_logger e && log_due (e_rate e) (t - e_lastpub e)%R then
        let* R := get_world_rotation x in let* p := get_world_position x in let* v := get_world_velocity x in let* bv := get_body_velocity x in
        Ok (t, [mkLine (e_files e) t p (quat_of_mat R) v bv])
      else Ok (e_lastpub e, []))
  end.
Proof.
  unfold LogWrite. destruct (e_pending e) as [x|]; [|reflexivity]. destruct (get_time x); cbn [bind rmap]; [|reflexivity]. destruct (e_logger e && _).
  - repeat (match goal with |- bind ?x _ = _ => destruct x; [cbn [bind]|reflexivity] end). reflexivity.
  - cbn [rmap]. rewrite app_nil_r. reflexivity.
Qed.
Lemma set_corrs_imu e ip cs : e_set_prop (e_set_corrs e cs) ip = e_set_corrs (e_set_prop e ip) cs. Proof. reflexivity. Qed.
Lemma lw_frame (e e' : est) : e_pending e' = e_pending e -> e_logger e' = e_logger e -> e_rate e' = e_rate e -> e_lastpub e' = e_lastpub e -> e_files e' = e_files e -> e_lines e' = e_lines e ->
  forall a, LogWrite e = Ok a -> LogWrite e' = Ok (e_log e' (e_logq e') (e_pending a) (e_lastpub a) (e_lines a)).
Proof.
  intros H1 H2 H3 H4 H5 H6 a. rewrite !log_write_eq, H1, H2, H3, H4, H5, H6. destruct (e_pending e) as [x|] eqn:Ep.
  - destruct (get_time x); cbn [bind rmap]; [|discriminate]. destruct (e_logger e && _).
    + repeat (match goal with |- context [bind ?x _] => destruct x; [cbn [bind]|discriminate] end). cbn [rmap]. intros [= <-]. reflexivity.
    + cbn [rmap]. intros [= <-]. reflexivity.
  - intros E. assert (a = e) by congruence. subst a. f_equal. unfold e_log. destruct e'; cbn in *. congruence.
Qed.
Lemma lw_none (e e' : est) : e_pending e' = e_pending e -> e_logger e' = e_logger e -> e_rate e' = e_rate e -> e_lastpub e' = e_lastpub e -> e_files e' = e_files e -> e_lines e' = e_lines e ->
  okof (LogWrite e') = option_map (fun a => e_log e' (e_logq e') (e_pending a) (e_lastpub a) (e_lines a)) (okof (LogWrite e)).
Proof.
  intros H1 H2 H3 H4 H5 H6. destruct (LogWrite e) as [a|x] eqn:E; cbn [okof option_map].
  - rewrite (lw_frame e e' H1 H2 H3 H4 H5 H6 a E). reflexivity.
  - destruct (LogWrite e') as [b|] eqn:E'; [|reflexivity]. rewrite (lw_frame e' e (eq_sym H1) (eq_sym H2) (eq_sym H3) (eq_sym H4) (eq_sym H5) (eq_sym H6) b E') in E. discriminate.
Qed.
(** what a log write does: only to the logging thread's own variables *)
Lemma lw_shape e a : LogWrite e = Ok a -> a = e_log e (e_logq e) (e_pending a) (e_lastpub a) (e_lines a).
Proof. intros E. pose proof (lw_frame e e eq_refl eq_refl eq_refl eq_refl eq_refl eq_refl a E). congruence. Qed.

(** what a log write reads, for a step that leaves the logging thread's variables alone *)
Definition quiet (o : op) : bool := match o with OClear | OLogPop | OLogWrite => false | _ => true end.
Lemma quiet_log e o : quiet o = true -> forall p t ls, est_step (e_log e (e_logq e) p t ls) o = rmap (fun e' => e_log e' (e_logq e') p t ls) (est_step e o).
Proof.
  intros Hq p t ls. destruct o; try discriminate; cbn [est_step].
  - cbn [e_prop e_log]. destruct (e_prop e); reflexivity.
  - reflexivity.
  - reflexivity.
  - unfold InitBias. cbn [e_prop e_log]. destruct (e_prop e) as [ip|]; [|reflexivity]. cbn [of_opt bind]. destruct (InitImuBias ip); reflexivity.
  - unfold InitState. cbn [e_prop e_log e_state]. destruct (e_prop e) as [ip|]; [|reflexivity]. cbn [of_opt bind].
    destruct (set_initial_state ip (e_state e)) as [[[b ip'] s]|]; [|reflexivity]. cbn [bind]. destruct b; cbn [negb]; [|reflexivity]. cbn [e_corrs e_log].
    destruct (spin_all (e_corrs e) s l) as [[cs s1]|]; [|reflexivity]. cbn [bind e_rot_cov e_vel_cov e_pos_cov e_log].
    repeat (match goal with |- bind ?x _ = _ => destruct x; [cbn [bind]|reflexivity] end). reflexivity.
  - unfold RunOnce. cbn [e_prop e_log e_state]. destruct (e_prop e) as [ip|]; [|reflexivity]. cbn [of_opt bind].
    destruct (Propagate ip (e_state e)) as [[[b ip'] s]|]; [|reflexivity]. cbn [bind e_corrs e_heap e_log].
    destruct (correct_all (e_corrs e) (e_heap e) s l) as [[[[b2 cs] h] s2]|]; [|reflexivity]. cbn [bind e_slip e_log]. destruct (b || b2); [|reflexivity].
    destruct (if e_slip e then _ else _); reflexivity.
  - reflexivity.
Qed.
Lemma quiet_keeps e o e' : quiet o = true -> est_step e o = Ok e' ->
  e_pending e' = e_pending e /\ e_logger e' = e_logger e /\ e_rate e' = e_rate e /\ e_lastpub e' = e_lastpub e /\ e_files e' = e_files e /\ e_lines e' = e_lines e.
Proof.
  intros Hq. destruct o; try discriminate; cbn [est_step].
  - destruct (e_prop e); [|discriminate]. cbn. intros [= <-]. repeat split.
  - intros [= <-]. repeat split.
  - intros [= <-]. repeat split.
  - unfold InitBias. destruct (e_prop e) as [ip|]; [|discriminate]. cbn [of_opt bind]. destruct (InitImuBias ip); [|discriminate]. cbn. intros [= <-]. repeat split.
  - unfold InitState. destruct (e_prop e) as [ip|]; [|discriminate]. cbn [of_opt bind].
    destruct (set_initial_state ip (e_state e)) as [[[b ip'] s]|]; [|discriminate]. cbn [bind]. destruct b; cbn [negb]; [|intros [= <-]; repeat split].
    destruct (spin_all (e_corrs e) s l) as [[cs s1]|]; [|discriminate]. cbn [bind].
    repeat (match goal with |- bind ?x _ = _ -> _ => destruct x; [cbn [bind]|discriminate] end). intros [= <-]. repeat split.
  - unfold RunOnce. destruct (e_prop e) as [ip|]; [|discriminate]. cbn [of_opt bind].
    destruct (Propagate ip (e_state e)) as [[[b ip'] s]|]; [|discriminate]. cbn [bind].
    destruct (correct_all (e_corrs e) (e_heap e) s l) as [[[[b2 cs] h] s2]|]; [|discriminate]. cbn [bind]. destruct (b || b2); [|intros [= <-]; repeat split].
    destruct (if e_slip e then _ else _); [|discriminate]. intros [= <-]. repeat split.
  - intros [= <-]. repeat split.
Qed.
Lemma quiet_after e a o : quiet o = true -> LogWrite e = Ok a -> est_step a o = rmap (fun e' => e_log e' (e_logq e') (e_pending a) (e_lastpub a) (e_lines a)) (est_step e o).
Proof. intros Hq E. rewrite <- (quiet_log e o Hq), <- (lw_shape e a E). reflexivity. Qed.
Lemma swap_write e o : quiet o = true -> okof (two e o OLogWrite) = okof (two e OLogWrite o).
Proof.
  intros Hq. unfold two. cbn [est_step]. destruct (est_step e o) as [e1|] eqn:E1; cbn [bind okof].
  - destruct (quiet_keeps e o e1 Hq E1) as (K1 & K2 & K3 & K4 & K5 & K6). rewrite (lw_none e e1 K1 K2 K3 K4 K5 K6). destruct (LogWrite e) as [a|] eqn:EW; [|reflexivity]. cbn [okof option_map bind].
    rewrite (quiet_after e a o Hq EW), E1. reflexivity.
  - destruct (LogWrite e) as [a|] eqn:EW; [|reflexivity]. cbn [bind]. rewrite (quiet_after e a o Hq EW), E1. reflexivity.
Qed.
(** taking a state to log: commutes with whatever leaves the queue of the logger alone *)
Definition leaves_logq (o : op) : bool := match o with ORunOnce _ | OClear | OLogPop | OLogWrite => false | _ => true end.
Lemma leaves_frame e o p q t ls : leaves_logq o = true -> est_step (e_log e q p t ls) o = rmap (fun e' => e_log e' q p t ls) (est_step e o).
Proof.
  intros Hq. destruct o; try discriminate; cbn [est_step].
  - cbn [e_prop e_log]. destruct (e_prop e); reflexivity.
  - reflexivity.
  - reflexivity.
  - unfold InitBias. cbn [e_prop e_log]. destruct (e_prop e) as [ip|]; [|reflexivity]. cbn [of_opt bind]. destruct (InitImuBias ip); reflexivity.
  - unfold InitState. cbn [e_prop e_log e_state]. destruct (e_prop e) as [ip|]; [|reflexivity]. cbn [of_opt bind].
    destruct (set_initial_state ip (e_state e)) as [[[b ip'] s]|]; [|reflexivity]. cbn [bind]. destruct b; cbn [negb]; [|reflexivity]. cbn [e_corrs e_log].
    destruct (spin_all (e_corrs e) s l) as [[cs s1]|]; [|reflexivity]. cbn [bind e_rot_cov e_vel_cov e_pos_cov e_log].
    repeat (match goal with |- bind ?x _ = _ => destruct x; [cbn [bind]|reflexivity] end). reflexivity.
  - reflexivity.
Qed.
Lemma leaves_keeps e o e' : leaves_logq o = true -> est_step e o = Ok e' -> e_logq e' = e_logq e.
Proof.
  intros Hq E. assert (est_step (e_log e (e_logq e) (e_pending e) (e_lastpub e) (e_lines e)) o = Ok e') as E2. { destruct e; exact E. }
  rewrite (leaves_frame e o _ _ _ _ Hq), E in E2. cbn [rmap] in E2. apply (f_equal okof) in E2. cbn in E2. assert (e_log e' (e_logq e) (e_pending e) (e_lastpub e) (e_lines e) = e') as X by congruence. rewrite <- X. reflexivity.
Qed.
Lemma leaves_quiet o : leaves_logq o = true -> quiet o = true. Proof. destruct o; auto. Qed.
Lemma swap_pop e o : leaves_logq o = true -> two e o OLogPop = two e OLogPop o.
Proof.
  intros Hq. unfold two. cbn [est_step bind]. unfold LogPop. destruct (est_step e o) as [e1|] eqn:E1; cbn [bind].
  - destruct (quiet_keeps e o e1 (leaves_quiet _ Hq) E1) as (K1 & K2 & K3 & K4 & K5 & K6). rewrite K1, (leaves_keeps _ _ _ Hq E1), K4, K6. destruct (e_pending e); [symmetry; exact E1|]. destruct (e_logq e); [symmetry; exact E1|].
    rewrite leaves_frame by exact Hq. rewrite E1. reflexivity.
  - destruct (e_pending e); [symmetry; exact E1|]. destruct (e_logq e); [symmetry; exact E1|]. rewrite leaves_frame by exact Hq. rewrite E1. reflexivity.
Qed.
Ltac dep H := match type of H with indep _ _ =>
  solve [ specialize (H RCore eq_refl); discriminate H | specialize (H RImu eq_refl); discriminate H | specialize (H ROut eq_refl); discriminate H
        | specialize (H RLogQueue eq_refl); discriminate H | specialize (H RLogFiles eq_refl); discriminate H ] end.
Lemma dep_vel i m o : indep (OVel i m) o -> match o with OInitState _ | ORunOnce _ | OClear => False | OVel j _ => i <> j | _ => True end.
Proof. intros H. specialize (H (RVel i)). cbn in H. rewrite Nat.eqb_refl in H. specialize (H eq_refl). destruct o; auto; try discriminate. apply Nat.eqb_neq in H. exact H. Qed.
Lemma dep_leg i m o : indep (OLeg i m) o -> match o with OInitState _ | ORunOnce _ | OClear => False | OLeg j _ => i <> j | _ => True end.
Proof. intros H. specialize (H (RLeg i)). cbn in H. rewrite Nat.eqb_refl in H. specialize (H eq_refl). destruct o; auto; try discriminate. apply Nat.eqb_neq in H. exact H. Qed.
Lemma swap_vel e i m o : indep (OVel i m) o -> okof (two e (OVel i m) o) = okof (two e o (OVel i m)).
Proof.
  intros H. pose proof (dep_vel _ _ _ H) as D. destruct o as [m'|j m'|j m'| |l|l| | | |]; try contradiction.
  - unfold two. cbn [est_step bind]. cbn [e_set_corrs e_set e_prop]. destruct (e_prop e); reflexivity.
  - unfold two. cbn [est_step bind okof]. f_equal. unfold e_set_corrs, e_set; cbn. f_equal. apply upd_swap_ne, D.
  - unfold two. cbn [est_step bind okof]. f_equal. unfold e_set_corrs, e_set; cbn. f_equal. apply upd_swap. intros c. apply push_swap; auto.
  - unfold two. cbn [est_step bind]. unfold InitBias. cbn [e_set_corrs e_set e_prop]. destruct (e_prop e) as [ip|]; [|reflexivity]. cbn [of_opt bind]. destruct (InitImuBias ip); reflexivity.
  - reflexivity.
  - rewrite swap_pop; reflexivity.
  - apply swap_write. reflexivity.
Qed.
Lemma swap_leg e i m o : indep (OLeg i m) o -> okof (two e (OLeg i m) o) = okof (two e o (OLeg i m)).
Proof.
  intros H. pose proof (dep_leg _ _ _ H) as D. destruct o as [m'|j m'|j m'| |l|l| | | |]; try contradiction.
  - unfold two. cbn [est_step bind]. cbn [e_set_corrs e_set e_prop]. destruct (e_prop e); reflexivity.
  - unfold two. cbn [est_step bind okof]. f_equal. unfold e_set_corrs, e_set; cbn. f_equal. apply upd_swap. intros c. apply push_swap; auto.
  - unfold two. cbn [est_step bind okof]. f_equal. unfold e_set_corrs, e_set; cbn. f_equal. apply upd_swap_ne, D.
  - unfold two. cbn [est_step bind]. unfold InitBias. cbn [e_set_corrs e_set e_prop]. destruct (e_prop e) as [ip|]; [|reflexivity]. cbn [of_opt bind]. destruct (InitImuBias ip); reflexivity.
  - reflexivity.
  - rewrite swap_pop; reflexivity.
  - apply swap_write. reflexivity.
Qed.
Lemma swap_out e o : indep OPopOut o -> okof (two e OPopOut o) = okof (two e o OPopOut).
Proof.
  intros H. destruct o as [m'|j m'|j m'| |l|l| | | |]; try dep H.
  - unfold two. cbn [est_step bind e_set_out e_set e_prop]. destruct (e_prop e); reflexivity.
  - symmetry. apply swap_vel, indep_sym, H.
  - symmetry. apply swap_leg, indep_sym, H.
  - unfold two. cbn [est_step bind]. unfold InitBias. cbn [e_set_out e_set e_prop]. destruct (e_prop e) as [ip|]; [|reflexivity]. cbn [of_opt bind]. destruct (InitImuBias ip); reflexivity.
  - rewrite swap_pop; reflexivity.
  - apply swap_write. reflexivity.
Qed.
Lemma swap_two e o1 o2 : indep o1 o2 -> okof (two e o1 o2) = okof (two e o2 o1).
Proof.
  intros H. pose proof (indep_sym _ _ H) as H'. destruct o1 as [m|i m|i m| |l|l| | | |].
  - destruct o2; try dep H; try (symmetry; solve [apply swap_vel, H'|apply swap_leg, H'|apply swap_out, H']); [rewrite swap_pop; reflexivity|apply swap_write; reflexivity].
  - apply swap_vel, H.
  - apply swap_leg, H.
  - destruct o2; try dep H; try (symmetry; solve [apply swap_vel, H'|apply swap_leg, H'|apply swap_out, H']); [rewrite swap_pop; reflexivity|apply swap_write; reflexivity].
  - destruct o2; try dep H; try (symmetry; solve [apply swap_vel, H'|apply swap_leg, H'|apply swap_out, H']); [rewrite swap_pop; reflexivity|apply swap_write; reflexivity].
  - destruct o2; try dep H; try (symmetry; solve [apply swap_vel, H'|apply swap_leg, H'|apply swap_out, H']). apply swap_write; reflexivity.
  - destruct o2; try dep H; symmetry; solve [apply swap_vel, H'|apply swap_leg, H'|apply swap_out, H'].
  - apply swap_out, H.
  - destruct o2; try dep H; try (symmetry; solve [apply swap_vel, H'|apply swap_leg, H'|apply swap_out, H']); rewrite swap_pop; reflexivity.
  - destruct o2; try dep H; symmetry; apply swap_write; reflexivity.
Qed.

(** ** Executions: protocol, run and published states together *)
Definition pub1 (e e' : est) : list rstate := skipn (length (e_out e)) (e_out e').
Fixpoint exec (e : est) (os : list op) (r : est) (pub : list rstate) : Prop :=
  match os with
  | [] => r = e /\ pub = []
  | o :: os => exists e1 pub', allowed e o /\ est_step e o = Ok e1 /\ pub = pub1 e e1 ++ pub' /\ exec e1 os r pub'
  end.
Lemma exec_iff : forall os e r pub, exec e os r pub <-> (protocol e os /\ est_run e os = Ok r /\ published any_op e os = pub).
Proof.
  induction os as [|o os IH]; intros e r pub; cbn [exec protocol published].
  - split; [intros [-> ->]; repeat split|intros (_ & E & <-); split; [unfold est_run in E; cbn in E; congruence|reflexivity]].
  - unfold est_run. cbn [foldM]. split.
    + intros (e1 & pub' & A & E & -> & X). apply IH in X. destruct X as (X1 & X2 & X3). rewrite E. cbn [bind]. repeat split; [exact A|intros e' [= <-]; exact X1|exact X2|cbn [any_op]; rewrite X3; reflexivity].
    + intros ((A & P) & E & <-). destruct (est_step e o) as [e1|]; [|discriminate]. cbn [bind] in E. exists e1, (published any_op e1 os). split; [exact A|]. split; [reflexivity|]. split; [reflexivity|]. apply IH. split; [apply P; reflexivity|]. split; [exact E|reflexivity].
Qed.

(** ** Swapping two independent neighbours *)
Definition is_call (o : op) : bool := match o with OInitBias | OInitState _ | ORunOnce _ | OClear => true | _ => false end.
Lemma call_core o : is_call o = uses RCore o. Proof. destruct o; reflexivity. Qed.
Lemma callback_keeps e o e' : is_call o = false -> est_step e o = Ok e' -> e_enabled e' = e_enabled e /\ BiasInitialized e' = BiasInitialized e.
Proof.
  intros Hc. unfold BiasInitialized. destruct o; try discriminate; cbn [est_step].
  - destruct (e_prop e); [|discriminate]. cbn. intros [= <-]. split; reflexivity.
  - intros [= <-]. split; reflexivity.
  - intros [= <-]. split; reflexivity.
  - intros [= <-]. split; reflexivity.
  - unfold LogPop. intros [= <-]. destruct (e_pending e); [auto|]. destruct (e_logq e); auto.
  - intros E. rewrite (lw_shape _ _ E). split; reflexivity.
Qed.
Lemma allowed_keeps e o e' x : is_call o = false -> est_step e o = Ok e' -> allowed e x <-> allowed e' x.
Proof. intros H E. destruct (callback_keeps e o e' H E) as [E1 E2]. unfold allowed. rewrite E1, E2. reflexivity. Qed.
Lemma callback_allowed e o : is_call o = false -> allowed e o. Proof. destruct o; cbn; auto; discriminate. Qed.
Lemma skip_same {A} (l : list A) : skipn (length l) l = []. Proof. apply skipn_all. Qed.
Lemma out_keeps e o e' : uses ROut o = false -> est_step e o = Ok e' -> e_out e' = e_out e.
Proof.
  intros Hc. destruct o; try discriminate; cbn [est_step].
  - destruct (e_prop e); [|discriminate]. cbn. intros [= <-]. reflexivity.
  - intros [= <-]. reflexivity.
  - intros [= <-]. reflexivity.
  - unfold InitBias. destruct (e_prop e) as [ip|]; [|discriminate]. cbn [of_opt bind]. destruct (InitImuBias ip); [|discriminate]. cbn. intros [= <-]. reflexivity.
  - unfold LogPop. intros [= <-]. destruct (e_pending e); [auto|]. destruct (e_logq e); auto.
  - intros E. rewrite (lw_shape _ _ E). reflexivity.
Qed.
Lemma pub1_callback e o e' : uses ROut o = false -> est_step e o = Ok e' -> pub1 e e' = [].
Proof. intros H E. unfold pub1. rewrite (out_keeps e o e' H E). apply skip_same. Qed.
Lemma exec_swap e o1 o2 q r pub : indep o1 o2 -> exec e (o1 :: o2 :: q) r pub -> exec e (o2 :: o1 :: q) r pub.
Proof.
  intros HI. cbn [exec]. intros (e1 & pub1' & A1 & S1 & -> & e2 & pub2' & A2 & S2 & -> & X).
  pose proof (swap_two e o1 o2 HI) as HS. unfold two in HS. rewrite S1 in HS. cbn [bind] in HS. rewrite S2 in HS. cbn [okof] in HS.
  destruct (est_step e o2) as [f1|] eqn:F1; [|discriminate]. cbn [bind] in HS. destruct (est_step f1 o1) as [f2|] eqn:F2; [|discriminate]. cbn [okof] in HS. injection HS as <-.
  assert (allowed e o2) as B2. { destruct (is_call o2) eqn:C2; [|apply callback_allowed, C2]. assert (is_call o1 = false) as C1. { rewrite call_core in *. apply (indep_sym _ _ HI), C2. } apply (allowed_keeps e o1 e1 o2 C1 S1), A2. }
  assert (allowed f1 o1) as B1. { destruct (is_call o1) eqn:C1; [|apply callback_allowed, C1]. assert (is_call o2 = false) as C2. { rewrite call_core in *. apply HI, C1. } apply (allowed_keeps e o2 f1 o1 C2 F1), A1. }
  exists f1, (pub1 f1 e2 ++ pub2'). split; [exact B2|]. split; [reflexivity|]. split; [|exists e2, pub2'; auto].
  rewrite !app_assoc. f_equal. destruct (uses ROut o1) eqn:U1.
  - pose proof (HI ROut U1) as U2. rewrite (pub1_callback _ _ _ U2 S2), (pub1_callback _ _ _ U2 F1), app_nil_r. cbn [app]. unfold pub1. rewrite (out_keeps _ _ _ U2 F1), (out_keeps _ _ _ U2 S2). reflexivity.
  - rewrite (pub1_callback _ _ _ U1 S1), (pub1_callback _ _ _ U1 F2), app_nil_r. cbn [app]. unfold pub1. rewrite (out_keeps _ _ _ U1 S1), (out_keeps _ _ _ U1 F2). reflexivity.
Qed.
Lemma exec_bubble o q r : forall p e pub, Forall (indep o) p -> exec e (o :: p ++ q) r pub -> exec e (p ++ o :: q) r pub.
Proof.
  induction p as [|x p IH]; intros e pub HF X; [exact X|]. inversion HF as [|? ? Hx Hp]; subst. cbn [app] in *. apply exec_swap in X; [|exact Hx].
  cbn [exec] in X. destruct X as (e1 & pub' & A & S & -> & X). cbn [exec]. exists e1, pub'. split; [exact A|]. split; [exact S|]. split; [reflexivity|]. apply IH; [exact Hp|]. exact X.
Qed.
Lemma split_filter {A} (f : A -> bool) x k : forall l, filter f l = x :: k -> exists p q, l = p ++ x :: q /\ Forall (fun y => f y = false) p /\ f x = true /\ filter f q = k.
Proof.
  induction l as [|y l IH]; cbn [filter]; [discriminate|]. destruct (f y) eqn:E.
  - intros [= -> <-]. exists [], l. repeat split; auto.
  - intros H. destruct (IH H) as (p & q & -> & P & X & Q). exists (y :: p), q. repeat split; auto.
Qed.
Lemma filter_false {A} (f : A -> bool) p : Forall (fun y => f y = false) p -> filter f p = [].
Proof. induction 1 as [|y p H _ IH]; cbn; [reflexivity|]. rewrite H. exact IH. Qed.
Lemma uses_some o : exists r, uses r o = true.
Proof. destruct o as [m|i m|i m| |l|l| | | |]; [exists RImu|exists (RVel i); cbn; apply Nat.eqb_refl|exists (RLeg i); cbn; apply Nat.eqb_refl|exists RCore|exists RCore|exists RCore|exists RCore|exists ROut|exists RLogQueue|exists RLogFiles]; reflexivity. Qed.
Lemma to_front o os os' : same_per_resource (o :: os) os' -> exists p q, os' = p ++ o :: q /\ Forall (indep o) p /\ same_per_resource os (p ++ q).
Proof.
  intros H. destruct (uses_some o) as [r0 H0]. pose proof (H r0) as E0. cbn [filter] in E0. rewrite H0 in E0. symmetry in E0.
  destruct (split_filter _ _ _ _ E0) as (p & q & -> & HP & _ & HQ). exists p, q. split; [reflexivity|].
  assert (forall r, uses r o = true -> Forall (fun y => uses r y = false) p) as HI.
  { intros r Hr. pose proof (H r) as E. cbn [filter] in E. rewrite Hr in E. rewrite filter_app in E. cbn [filter] in E. rewrite Hr in E. apply Forall_forall. intros y Hy. destruct (uses r y) eqn:Ey; [|reflexivity]. exfalso.
    assert (In y (filter (uses r) p)) as Iy by (apply filter_In; auto). destruct (filter (uses r) p) as [|z zs] eqn:Ez; [contradiction|]. cbn [app] in E. injection E as <- _.
    assert (In o (filter (uses r) p)) as Io by (rewrite Ez; left; reflexivity). apply filter_In in Io. destruct Io as [Io _]. rewrite Forall_forall in HP. rewrite (HP o Io) in H0. discriminate. }
  split.
  - apply Forall_forall. intros y Hy r Hr. specialize (HI r Hr). rewrite Forall_forall in HI. apply HI, Hy.
  - intros r. pose proof (H r) as E. rewrite filter_app in *. cbn [filter] in E. destruct (uses r o) eqn:Er.
    + rewrite (filter_false _ _ (HI r Er)) in *. cbn [app] in *. congruence.
    + exact E.
Qed.
Lemma exec_same : forall os os' e r pub, same_per_resource os os' -> exec e os r pub -> exec e os' r pub.
Proof.
  induction os as [|o os IH]; intros os' e r pub HS X.
  - destruct os' as [|o' os']; [exact X|]. exfalso. destruct (uses_some o') as [r0 H0]. specialize (HS r0). cbn [filter] in HS. rewrite H0 in HS. discriminate.
  - destruct (to_front _ _ _ HS) as (p & q & -> & HP & HS'). apply exec_bubble; [exact HP|]. cbn [exec] in X. destruct X as (e1 & pub' & A & S & -> & X). exists e1, pub'. split; [exact A|]. split; [exact S|]. split; [reflexivity|]. apply (IH _ _ _ _ HS' X).
Qed.
Lemma imus_filter os : map OImu (imus os) = filter (fun o => match o with OImu _ => true | _ => false end) os.
Proof. induction os as [|o os IH]; [reflexivity|]. destruct o; cbn; rewrite ?IH; reflexivity. Qed.
Lemma imus_same os os' : same_per_resource os os' -> imus os = imus os'.
Proof.
  intros H. specialize (H RImu). assert (forall l, imus l = imus (filter (uses RImu) l)) as K. { induction l as [|o l IH]; [reflexivity|]. destruct o; cbn; rewrite ?IH; reflexivity. } rewrite (K os), (K os'), H. reflexivity.
Qed.
Lemma thm_interleaving f os os' e : same_per_resource os os' -> reachable f os e -> reachable f os' e /\ published any_op (build f) os' = published any_op (build f) os.
Proof.
  intros HS (HC & HI & HP & HR). assert (exec (build f) os e (published any_op (build f) os)) as X by (apply exec_iff; auto). apply (exec_same _ _ _ _ _ HS) in X. apply exec_iff in X. destruct X as (X1 & X2 & X3).
  split; [|exact X3]. split; [exact HC|]. split; [rewrite <- (imus_same _ _ HS); exact HI|]. split; assumption.
Qed.
