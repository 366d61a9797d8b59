(** Proofs: what a call of RunOnce does with queues, time stamps and outputs. *)
From Coq Require Import Reals ZArith List Bool Arith Lia Lra.
From Verif Require Import Res Vec3 Mat MatInv Psd Spec LieGroup LieSO3 LieSEK RobotState StateProofs Inekf SpecFilter InekfThms Blk Imu Propagation SpecProp
  PropagationThms ImuRest ImuThms ImuNeg Queue VelCorr LegCorr SpecCorr VelThms PsdBlk LegThms LegUpd LegHist Estimator SpecEst EstInv EstSafe.
Import ListNotations.
Local Open Scope R_scope.

Definition lift_fate {A} (f : A -> reading) (x : fate A) : fate reading := mkFate (map f (f_dropped x)) (option_map f (f_used x)).
Lemma consumed_lift {A} (f : A -> reading) x : consumed (lift_fate f x) = map f (consumed x).
Proof. unfold consumed, lift_fate. cbn. rewrite map_app. destruct (f_used x); reflexivity. Qed.

(** one correction's turn *)
Lemma corr_turn c h s a tp t o : core o h s -> (forall c0, c = CLeg c0 -> o = Some c0) -> corr_noise c -> stprop s = Some tp -> st s = Some t ->
  exists b c' h' s' f, corr_Correct c h s a = Ok (b, c', h', s') /\ turn_ok (Some tp) c a f c' /\
    core (match c' with CLeg c0 => Some c0 | CVel _ => o end) h' s' /\ corr_noise c' /\ is_CLeg c' = is_CLeg c /\
    stprop s' = Some tp /\
    match f_used f with Some x => b = true /\ st s' = Some (r_time x) | None => b = false /\ s' = s /\ h' = h end.
Proof.
  intros HC HO HN Ht Hs. destruct c as [c|c]; cbn [corr_Correct].
  - destruct (vel_step o h c s (a_vel a) tp t HC HN Ht Hs) as (b & c' & s' & t' & E & C' & N' & T' & _). rewrite E. cbn [bind].
    destruct HC as (ids & C & _ & _). pose proof (contacts_wfp _ _ _ _ C) as W.
    destruct (vel_Correct_spec _ _ _ _ _ _ E) as (Ec & f & F1 & F2 & F3 & F4). destruct (F3 _ Ht) as [F5 F6].
    exists b, (CVel c'), h, s', (lift_fate Datatypes.inl f). split; [reflexivity|]. split.
    { split; [|split].
      - cbn [queued arriving]. rewrite consumed_lift, <- !map_app. f_equal. exact F1.
      - cbn. apply Forall_map. eapply Forall_impl; [|exact F5]. intros x Hx. exists tp. split; [reflexivity|exact Hx].
      - intros x Hx. cbn in Hx. destruct (f_used f) as [y|]; [|discriminate]. injection Hx as <-. exists tp. split; [reflexivity|]. apply F6; reflexivity. }
    split; [exact C'|]. split; [exact N'|]. split; [reflexivity|]. split; [exact T'|]. cbn. destruct (f_used f) as [m|]; cbn.
    + destruct F4 as [-> F4]. destruct (vel_update_time _ _ _ _ _ W F4) as [_ M']. destruct M' as (_ & _ & M1 & M2 & _). split; [reflexivity|]. rewrite M1. reflexivity.
    + destruct F4 as [-> ->]. auto.
  - rewrite (HO _ eq_refl) in HC. destruct (leg_step c h s (a_leg a) tp t HC HN Ht Hs) as (b & c' & h' & s' & t' & E & C' & N' & T' & _). rewrite E. cbn [bind].
    destruct HC as (ids & C & _ & _).
    destruct (leg_Correct_spec _ _ _ _ _ _ _ _ E) as (f & F1 & F2 & F3 & F4). destruct (F3 _ Ht) as [F5 F6].
    exists b, (CLeg c'), h', s', (lift_fate Datatypes.inr f). split; [reflexivity|]. split.
    { split; [|split].
      - cbn [queued arriving]. rewrite consumed_lift, <- !map_app. f_equal. exact F1.
      - cbn. apply Forall_map. eapply Forall_impl; [|exact F5]. intros x Hx. exists tp. split; [reflexivity|exact Hx].
      - intros x Hx. cbn in Hx. destruct (f_used f) as [y|]; [|discriminate]. injection Hx as <-. exists tp. split; [reflexivity|]. apply F6; reflexivity. }
    split; [exact C'|]. split; [exact N'|]. split; [reflexivity|]. split; [exact T'|]. cbn. destruct (f_used f) as [m|]; cbn.
    + destruct F4 as [-> (q & E1 & E2)].
      destruct (leg_update_inv _ _ _ _ ids _ _ _ (tracks_queue c q h s ids C) E1) as (s1 & ids2 & m' & A1 & A2 & A3 & A4 & A5 & A6).
      destruct A5 as (_ & _ & M1 & M2 & _). destruct (lb_time _ _ _ _ _ _ _ A3) as [B1 B2]. split; [reflexivity|]. rewrite B1, M1. reflexivity.
    + destruct F4 as (-> & _ & -> & ->). auto.
Qed.

Lemma all_turns : forall cs ctx h s l tp t, (n_leg cs + n_ctx ctx <= 1)%nat -> Forall corr_noise cs ->
  core (pick ctx cs) h s -> stprop s = Some tp -> st s = Some t ->
  exists b cs' h' s' fs, correct_all cs h s l = Ok (b, cs', h', s') /\ turns_ok (Some tp) cs l fs cs' /\
    (b = true <-> used_some fs) /\ (b = false -> h' = h /\ s' = s) /\ stprop s' = Some tp /\
    forall d, (forall x, d = Some x -> st s = Some (r_time x)) ->
      match last_used fs d with Some x => st s' = Some (r_time x) | None => st s' = st s end.
Proof.
  induction cs as [|c cs IH]; intros ctx h s l tp t Hl HN HC Ht Hs; cbn [correct_all].
  { exists false, [], h, s, []. split; [reflexivity|]. split; [exact I|]. split; [split; [discriminate|intros H; inversion H]|].
    split; [auto|]. split; [auto|]. intros d Hd. cbn. destruct d; auto. }
  inversion HN as [|x y HNc HNs]; subst.
  assert (exists o, pick ctx (c :: cs) = o /\ (forall c0, c = CLeg c0 -> o = Some c0)) as (o & Ho & HO).
  { eexists. split; [reflexivity|]. intros c0 ->. destruct ctx; [unfold n_leg in Hl; cbn in Hl; lia|reflexivity]. }
  rewrite Ho in HC.
  destruct (corr_turn c h s (hd_arr l) tp t o HC HO HNc Ht Hs) as (b & c' & h1 & s1 & f & E & T1 & C1 & N1 & L1 & P1 & U1). rewrite E. cbn [bind].
  assert (exists t1, st s1 = Some t1) as [t1 Hs1] by (destruct (f_used f); [destruct U1 as [_ U1]|destruct U1 as (_ & -> & _)]; eauto).
  set (ctx' := match c' with CLeg c0 => Some c0 | CVel _ => ctx end).
  assert ((n_leg cs + n_ctx ctx' <= 1)%nat) as Hl'.
  { unfold ctx'. unfold n_leg in Hl |- *. cbn [filter] in Hl. destruct c', c; cbn in L1; try discriminate; cbn in Hl |- *; lia. }
  assert (core (pick ctx' cs) h1 s1) as HC'.
  { unfold ctx'. destruct c' as [c'|c'].
    - destruct c; [|discriminate]. unfold pick in *. destruct ctx; subst o; exact C1.
    - exact C1. }
  destruct (IH ctx' h1 s1 (tl_arr l) tp t1 Hl' HNs HC' P1 Hs1) as (b2 & cs2 & h2 & s2 & fs & E2 & T2 & U2 & K2 & P2 & Q2).
  rewrite E2. cbn [bind]. exists (b || b2), (c' :: cs2), h2, s2, (f :: fs). split; [reflexivity|]. split; [split; auto|]. split; [|split; [|split; [exact P2|]]].
  - rewrite orb_true_iff, U2. unfold used_some. rewrite Exists_cons. split.
    + intros [H|H]; [left|right; exact H]. destruct (f_used f); [discriminate|]. destruct U1; congruence.
    + intros [H|H]; [left|right; exact H]. destruct (f_used f); [apply U1|congruence].
  - intros Hb. apply orb_false_iff in Hb. destruct Hb as [-> ->]. destruct (K2 eq_refl) as [-> ->]. destruct (f_used f); [destruct U1; discriminate|]. destruct U1 as (_ & -> & ->). auto.
  - intros d Hd. cbn [last_used]. destruct (f_used f) as [x|].
    + destruct U1 as [_ U1]. specialize (Q2 (Some x)). cbn in Q2. destruct (last_used fs (Some x)) eqn:EL.
      * apply Q2. intros y [= <-]. exact U1.
      * exfalso. clear -EL. revert EL. generalize x. induction fs as [|g fs IH]; cbn; [discriminate|]. intros y. destruct (f_used g); apply IH.
    + destruct U1 as (_ & -> & _). apply Q2. exact Hd.
Qed.

(** ** RunOnce *)
Definition pub_of (b : bool) (s : rstate) : list rstate := if b then [s] else [].
Lemma RunOnce_spec fut e l : est_ok fut e -> e_enabled e = true ->
  exists e' fs b tp, RunOnce e l = Ok e' /\ stprop (e_state e') = Some tp /\
    turns_ok (Some tp) (e_corrs e) l fs (e_corrs e') /\
    imu_queue e' = tl (imu_queue e) /\
    (b = true <-> imu_queue e <> [] \/ used_some fs) /\
    (b = false -> e_state e' = e_state e /\ e_heap e' = e_heap e /\ e_prop e' = e_prop e) /\
    e_out e' = e_out e ++ pub_of b (e_state e') /\
    e_logq e' = e_logq e ++ (if e_logger e then pub_of b (e_state e') else []) /\
    e_enabled e' = true /\ e_lines e' = e_lines e /\
    (imu_queue e = [] -> stprop (e_state e) = Some tp) /\
    (imu_queue e <> [] -> exists ip m, e_prop e = Some ip /\ ip_prev ip = Some m /\ tp = i_t m) /\
    match last_used fs None with
    | Some x => st (e_state e') = Some (r_time x)
    | None => st (e_state e') = if (match imu_queue e with [] => true | _ => false end) then st (e_state e) else Some tp
    end.
Proof.
  intros [(ip & Hip & HN & HCal & HS & HRun) Hno Hle Hsl Hcov Hon Hoff Hpub] HA.
  destruct (HRun HA) as (tp & t & m & R1 & R2 & R3 & R4). cbn [map nondec] in R4. destruct R4 as [R4 R5].
  assert (imu_queue e = ip_queue ip) as EQ by (unfold imu_queue; rewrite Hip; reflexivity). rewrite EQ.
  unfold RunOnce. rewrite Hip. cbn [of_opt bind].
  destruct (prop_step _ (e_heap e) ip (e_state e) tp m (Hon HA) R1 HN R3 R4) as (b & ip' & s1 & E & C1 & Hq). rewrite E. cbn [bind].
  assert (exists tp1 t1, stprop s1 = Some tp1 /\ st s1 = Some t1) as (tp1 & t1 & T1 & T2).
  { destruct (ip_queue ip); [destruct Hq as (_ & _ & ->); eauto|destruct Hq as (_ & _ & ? & ?); eauto]. }
  destruct (all_turns (e_corrs e) None (e_heap e) s1 l tp1 t1) as (b2 & cs' & h' & s' & fs & E2 & TT & U2 & K2 & P2 & Q2); auto.
  { cbn. lia. }
  rewrite E2. cbn [bind]. rewrite Hsl. cbn [bind].
  set (e' := e_set e s' h' (Some ip') cs' (e_enabled e) (e_out e ++ pub_of (b || b2) s') (e_logq e ++ (if e_logger e then pub_of (b || b2) s' else []))).
  assert ((if b || b2 then Ok (e_set e s' h' (Some ip') cs' (e_enabled e) (e_out e ++ [s']) (if e_logger e then e_logq e ++ [s'] else e_logq e))
     else Ok (e_set e s' h' (Some ip') cs' (e_enabled e) (e_out e) (e_logq e))) = Ok e') as Ee.
  { unfold e', pub_of. destruct (b || b2), (e_logger e); rewrite ?app_nil_r; reflexivity. }
  exists e', fs, (b || b2), tp1. split; [exact Ee|]. split; [exact P2|]. split; [exact TT|].
  assert (b = true <-> ip_queue ip <> []) as Bq. { destruct (ip_queue ip); destruct Hq as [-> _]; split; congruence. }
  split. { unfold e', imu_queue. cbn [e_prop e_set]. destruct (ip_queue ip) eqn:Eq; destruct Hq as (_ & -> & _); [rewrite Eq|]; reflexivity. }
  split. { rewrite orb_true_iff, Bq, U2. tauto. }
  split. { intros Hb. apply orb_false_iff in Hb. destruct Hb as [-> ->]. destruct (K2 eq_refl) as [-> ->].
    destruct (ip_queue ip); [|destruct Hq; discriminate]. destruct Hq as (_ & -> & ->). unfold e'. cbn. auto. }
  split; [reflexivity|]. split; [reflexivity|]. split; [exact HA|]. split; [reflexivity|].
  split. { intros H. destruct (ip_queue ip); [|discriminate]. destruct Hq as (_ & _ & ->). congruence. }
  split. { intros H. exists ip, m. split; [auto|]. split; [auto|]. destruct (ip_queue ip); [congruence|]. destruct Hq as (_ & _ & H1 & _). congruence. }
  specialize (Q2 None). cbn in Q2. destruct (last_used fs None) as [x|]; [apply Q2; discriminate|]. change (e_state e') with s'. rewrite Q2 by discriminate.
  destruct (ip_queue ip); [destruct Hq as (_ & _ & ->); reflexivity|]. destruct Hq as (_ & _ & H1 & H2). congruence.
Qed.

Lemma reach_ok f os e : reachable f os e -> est_ok [] e.
Proof.
  intros (HC & HS & HP & HR). pose proof (run_safe os (build f) (build_ok f _ HC HS) HP) as H. rewrite HR in H. exact H.
Qed.
Lemma thm_run_once f os e l : reachable f os e -> e_enabled e = true ->
  exists e' fs pub tp, RunOnce e l = Ok e' /\
    e_out e' = e_out e ++ pub /\ e_logq e' = e_logq e ++ (if e_logger e then pub else []) /\
    stprop (e_state e') = Some tp /\ turns_ok (Some tp) (e_corrs e) l fs (e_corrs e') /\ imu_queue e' = tl (imu_queue e) /\
    ((imu_queue e <> [] \/ used_some fs) -> pub = [e_state e']) /\
    (imu_queue e = [] /\ ~ used_some fs -> pub = [] /\ e_state e' = e_state e).
Proof.
  intros HR HA. destruct (RunOnce_spec [] e l (reach_ok _ _ _ HR) HA) as (e' & fs & b & tp & A1 & A2 & A3 & A4 & A5 & A6 & A7 & A8 & _).
  exists e', fs, (pub_of b (e_state e')), tp. do 6 (split; [assumption|]). split.
  - intros H. apply A5 in H. rewrite H. reflexivity.
  - intros [H1 H2]. destruct b; [exfalso; assert (imu_queue e <> [] \/ used_some fs) by (apply A5; reflexivity); tauto|]. split; [reflexivity|]. apply A6; reflexivity.
Qed.
