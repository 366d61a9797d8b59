(** Proofs: initialisation (C28), time stamps (C29), conservation of readings (C49). *)
From Coq Require Import Reals ZArith List Bool Arith Lia Lra.
From Verif Require Import Res Vec3 Mat MatInv Psd Spec LieGroup LieSO3 LieSEK RobotState StateProofs Inekf SpecFilter InekfThms Blk Imu Propagation SpecProp
  PropagationThms ImuRest ImuThms ImuNeg Queue VelCorr LegCorr SpecCorr VelThms PsdBlk LegThms LegUpd LegHist Estimator SpecEst EstInv EstSafe EstPub EstHist.
Import ListNotations.
Local Open Scope R_scope.

(** ** InitState *)
Lemma eye_rot_col : rot (meye 5) = mid /\ forall k, (k < 2)%nat -> col (meye 5) k = vzero.
Proof.
  change (meye 5) with (meye (3 + 2)). rewrite eye_sek. split; [apply rot_aff|]. intros k Hk. apply col_aff; auto.
Qed.
Lemma InitState_spec fut e l ip e' : est_ok fut e -> e_enabled e = false -> e_prop e = Some ip -> InitState e l = Ok e' ->
  match ip_queue ip with
  | [] => e' = e_set_corrs e (deliver_all (e_corrs e) l)
  | m :: q =>
    exists us, took_all (e_corrs e) l us (e_corrs e') /\
    e_enabled e' = true /\ e_prop e' = Some (set_prev (set_queue ip q) m) /\ e_out e' = e_out e ++ [e_state e'] /\ e_logq e' = e_logq e /\
    e_lines e' = e_lines e /\
    let s := e_state e' in
    wfp 2 s /\ rot (sX s) = (if ip_use_ori ip then toRotationMatrix (i_q m) else mid) /\ col (sX s) 1 = vzero /\
    gbias s = ip_bg0 ip /\ abias s = ip_ba0 ip /\ stprop s = Some (i_t m) /\
    sP s = bdiag 5 (init_blocks (e_rot_cov e) (e_vel_cov e) (e_pos_cov e) (ip_gyro_bias_cov ip) (ip_accel_bias_cov ip)) /\
    match newest (concat us) with
    | Some x => col (sX s) 0 = rot (sX s) *v r_vel (i_w m) x /\ st s = Some (r_time x)
    | None => col (sX s) 0 = vzero /\ st s = Some (i_t m)
    end
  end.
Proof.
  intros HE HA Hip E. pose proof HE as [(ip0 & Hip0 & HN & HCal & HS & HRun) Hno Hle Hsl Hcov Hon Hoff Hpub].
  rewrite Hip in Hip0. injection Hip0 as <-. destruct (Hoff HA) as [B _].
  rewrite (InitState_eq e l ip Hip B) in E.
  2:{ intros m Hm. apply unit_rot. destruct (ip_queue ip) as [|x q]; [discriminate|]. injection Hm as ->. destruct HS as [HS _]. cbn in HS. inversion HS; auto. }
  destruct (ip_queue ip) as [|m q] eqn:Eq.
  { injection E as <-. unfold e_set_corrs. rewrite Hip. reflexivity. }
  set (s0 := init_state 2 ip m (e_state e)) in *. pose proof (blank_wfp _ B) as WB.
  assert (wfp 2 s0) as W0. { apply init_state_wfp; [exact WB|]. apply unit_rot. destruct HS as [HS _]. cbn in HS. inversion HS; auto. }
  apply bind_inv in E. destruct E as ([cs s1] & Es & E). injection E as <-.
  destruct (spin_all_ok 2 (i_w m) (e_corrs e) s0 l W0 eq_refl) as (_ & H2 & _).
  destruct (H2 _ _ Es) as (F & W1 & L1 & N1 & M1 & A1 & A2 & A3 & A4 & A5 & A6 & A7 & A8 & A9).
  destruct (spin_took 2 (i_w m) _ _ _ _ _ W0 eq_refl Es) as (us & T & NW). exists us.
  cbn [e_set e_corrs e_enabled e_prop e_out e_logq e_lines e_state]. split; [exact T|]. do 5 (split; [reflexivity|]).
  assert (rot (sX s0) = init_rot ip m) as R0 by (apply rot_aff).
  split. { destruct W1 as [[WX WT1 WT2 WP1 WP2] HK HT HQ1 HQ2]. split; auto. split; auto. }
  split. { change (rot (sX s1) = init_rot ip m). rewrite A7. exact R0. }
  split. { change (col (sX s1) 1 = vzero). rewrite A8 by lia. unfold s0, init_state. cbn [sX]. rewrite col_aff by lia. reflexivity. }
  destruct (init_state_bias 2 ip m _ WB) as [B1 B2].
  split. { unfold gbias in *. change (sTheta (start_state e ip s1)) with (sTheta s1). rewrite A6. exact B1. }
  split. { unfold abias in *. change (sTheta (start_state e ip s1)) with (sTheta s1). rewrite A6. exact B2. }
  split. { change (stprop s1 = Some (i_t m)). rewrite A5. reflexivity. }
  split; [reflexivity|].
  change (sX (start_state e ip s1)) with (sX s1). change (st (start_state e ip s1)) with (st s1).
  destruct (newest (concat us)) as [x|].
  - destruct NW as [N2 N3]. rewrite N2, N3, A7. auto.
  - destruct NW as [N2 N3]. rewrite N2, N3. split; [|reflexivity]. unfold s0, init_state. cbn [sX]. rewrite col_aff by lia. cbn [Nat.eqb].
    rewrite (bl_X _ B). apply eye_rot_col. lia.
Qed.
Lemma thm_init_state f os e l ip : reachable f os e -> e_enabled e = false -> e_prop e = Some ip -> fed_all (e_corrs e) l ->
  exists e', InitState e l = Ok e' /\
  match ip_queue ip with
  | [] => e_enabled e' = false /\ e_state e' = e_state e /\ e_out e' = e_out e
  | m :: q =>
    let s := e_state e' in
    e_enabled e' = true /\ e_out e' = e_out e ++ [s] /\ imu_queue e' = q /\
    (exists us, took_all (e_corrs e) l us (e_corrs e') /\
       match newest (concat us) with
       | Some x => col (sX s) 0 = rot (sX s) *v r_vel (i_w m) x /\ st s = Some (r_time x)
       | None => col (sX s) 0 = vzero /\ st s = Some (i_t m)
       end) /\
    rot (sX s) = (if dflt (c_use_ori (f_imu f)) false then toRotationMatrix (i_q m) else mid) /\
    col (sX s) 1 = vzero /\ gbias s = ip_bg0 ip /\ abias s = ip_ba0 ip /\ stprop s = Some (i_t m) /\
    sP s = bdiag 5 (start_cov f)
  end.
Proof.
  intros HR HA Hip HF. pose proof (reach_ok _ _ _ HR) as HE.
  assert (exists e', InitState e l = Ok e') as [e' E].
  { pose proof HE as [(ip0 & Hip0 & HN & HCal & HS & HRun) Hno Hle Hsl Hcov Hon Hoff Hpub]. rewrite Hip in Hip0. injection Hip0 as <-.
    destruct (Hoff HA) as [B _]. rewrite (InitState_eq e l ip Hip B).
    2:{ intros m Hm. apply unit_rot. destruct (ip_queue ip) as [|x q]; [discriminate|]. injection Hm as ->. destruct HS as [HS _]. cbn in HS. inversion HS; auto. }
    destruct (ip_queue ip) as [|m q]; [eauto|]. set (s0 := init_state 2 ip m (e_state e)).
    assert (wfp 2 s0) as W0. { apply init_state_wfp; [apply blank_wfp; exact B|]. apply unit_rot. destruct HS as [HS _]. cbn in HS. inversion HS; auto. }
    destruct (spin_all_ok 2 (i_w m) (e_corrs e) s0 l W0 eq_refl) as (H1 & _). destruct (H1 HF) as (cs & s & ->). cbn [bind]. eauto. }
  exists e'. split; [exact E|]. pose proof (InitState_spec [] e l ip e' HE HA Hip E) as H. destruct (ip_queue ip) as [|m q] eqn:Eq.
  { subst e'. cbn. auto. }
  destruct H as (us & T & A1 & A2 & A3 & A4 & A5 & A6 & A7 & A8 & A9 & A10 & A11 & A12 & A13). cbv zeta.
  split; [exact A1|]. split; [exact A3|]. split; [unfold imu_queue; rewrite A2; reflexivity|]. split; [eauto|].
  destruct HR as (_ & _ & _ & HR). destruct (run_fixed _ _ _ HR) as (F1 & _ & F2). rewrite build_eq in F1, F2. cbn in F1, F2. rewrite Hip in F2. cbn in F2.
  injection F2 as G1 G2 G3 G4 G5 G6 G7 G8 G9 G10 G11. unfold e_fixed in F1. cbn in F1. injection F1 as J1 J2 J3 J4 J5 J6 J7 J8.
  split; [rewrite A7, G4; reflexivity|]. do 4 (split; [assumption|]). rewrite A12, G8, G9, J5, J6, J7.
  apply blk_ext. intros i j Hi Hj. destruct (Nat.eqb i j); [|reflexivity].
  unfold start_cov, init_blocks, diag3, var_of, std_of, sq_or, dflt.
  destruct i as [|[|[|[|i]]]]; try reflexivity; f_equal; ring.
Qed.

(** ** time stamps *)
Definition bound (lb : R) (fut : list imu) (e : est) : Prop :=
  if e_enabled e then exists tp, stprop (e_state e) = Some tp /\ lb <= tp else nondec lb (map i_t (imu_queue e ++ fut)).
Lemma bound_frame lb fut e e' : e_enabled e' = e_enabled e -> e_state e' = e_state e -> imu_queue e' = imu_queue e -> bound lb fut e -> bound lb fut e'.
Proof. unfold bound. intros -> -> ->. auto. Qed.
Definition step_pub (sel : op -> bool) (e : est) (o : op) (e' : est) : list rstate := if sel o then skipn (length (e_out e)) (e_out e') else [].
Lemma skipn_app_len {A} (a b : list A) : skipn (length a) (a ++ b) = b.
Proof. induction a; cbn; auto. Qed.
Lemma skipn_len {A} (a : list A) : skipn (length a) a = [].
Proof. induction a; cbn; auto. Qed.
Definition thr_bound (thr : R) (cs : list corr_obj) : Prop := Forall (fun c => thr_of c <= thr) cs.
Lemma turns_last tp thr : forall cs l fs cs' d x, turns_ok (Some tp) cs l fs cs' -> thr_bound thr cs -> last_used fs d = Some x ->
  d = Some x \/ (tp - thr <= r_time x /\ cs <> []).
Proof.
  induction cs as [|c cs IH]; intros l fs cs' d x T HB HL; destruct fs as [|f fs]; destruct cs' as [|c' cs']; cbn in T; try contradiction.
  - left. exact HL.
  - destruct T as [(T1 & T2 & T3) T]. inversion HB as [|y z B1 B2]; subst. cbn in HL. destruct (f_used f) as [y|].
    + destruct (IH _ _ _ (Some y) x T B2 HL) as [H|H]; [|right; split; [apply H|discriminate]]. injection H as ->. right.
      destruct (T3 _ eq_refl) as (t & [= <-] & H). unfold stale in H. split; [lra|discriminate].
    + destruct (IH _ _ _ d x T B2 HL) as [H|H]; [auto|]. right. split; [apply H|discriminate].
Qed.
Lemma last_some fs x : exists y, last_used fs (Some x) = Some y.
Proof. revert x. induction fs as [|f fs IH]; intros x; cbn; [eauto|]. destruct (f_used f); apply IH. Qed.
Lemma last_none fs : used_some fs -> forall d, exists y, last_used fs d = Some y.
Proof.
  induction 1 as [f fs H|f fs H IH]; intros d; cbn.
  - destruct (f_used f); [apply last_some|congruence].
  - apply IH.
Qed.
(** what one published state looks like *)
Definition pub_ok (thr : R) (nocorr : Prop) (run : bool) (s : rstate) : Prop :=
  exists t tp, st s = Some t /\ stprop s = Some tp /\ (run = true -> tp - thr <= t) /\ (nocorr -> t = tp).
Lemma step_time fut e o e' lb thr : est_ok (op_imu o ++ fut) e -> allowed e o -> est_step e o = Ok e' ->
  bound lb (op_imu o ++ fut) e -> thr_bound thr (e_corrs e) -> 0 <= thr ->
  exists lb', lb <= lb' /\ bound lb' fut e' /\
    (step_pub is_filter_op e o e' = [] \/ exists s, step_pub is_filter_op e o e' = [s] /\ prop_time s = lb' /\ pub_ok thr (e_corrs e = []) (is_run_op o) s).
Proof.
  intros HE HA E HB HT Hthr. assert (forall A : Prop, A -> exists lb', lb <= lb' /\ (lb' = lb -> A) /\ lb' = lb) as HL.
  { intros A a. exists lb. split; [lra|auto]. }
  destruct o; cbn [est_step op_imu app is_filter_op is_run_op] in *; unfold step_pub; cbn [is_filter_op].
  - exists lb. split; [lra|]. split; [|auto]. destruct (e_prop e) as [ip|] eqn:Hp; [|discriminate]. injection E as <-.
    unfold bound, imu_queue in *. rewrite Hp in HB. cbn in *. destruct (e_enabled e); [exact HB|]. rewrite <- app_assoc. exact HB.
  - injection E as <-. exists lb. split; [lra|]. split; [|auto]. exact HB.
  - injection E as <-. exists lb. split; [lra|]. split; [|auto]. exact HB.
  - destruct HA as [HA _]. exists lb. split; [lra|]. split; [|auto]. unfold InitBias in E. destruct (e_prop e) as [ip|] eqn:Hp; [|discriminate]. cbn in E.
    apply bind_inv in E. destruct E as (ip' & E1 & E). injection E as <-. unfold bound, imu_queue in *. rewrite Hp, HA in HB. cbn. rewrite HA.
    unfold InitImuBias in E1. destruct (negb (ip_static ip)); [injection E1 as <-; exact HB|]. destruct (size_lt _ _).
    + destruct (ip_queue ip) eqn:Eq; injection E1 as <-; cbn; [rewrite Eq; exact HB|]. eapply nondec_tail; exact HB.
    + apply bind_inv in E1. destruct E1 as (u & _ & E1). injection E1 as <-. exact HB.
  - destruct HA as [HA _]. destruct (ok_prop _ _ HE) as (ip & Hip & _). pose proof (InitState_spec fut e l ip e' HE HA Hip E) as H.
    unfold bound, imu_queue in HB. rewrite HA, Hip in HB. destruct (ip_queue ip) as [|m q].
    + subst e'. exists lb. split; [lra|]. split; [|left; cbn; apply skipn_len]. unfold bound, imu_queue. cbn. rewrite HA, Hip.
      pose proof (ok_prop _ _ HE) as (ip0 & Hip0 & _). cbn in HB. unfold bound in *. destruct (ip_queue ip) eqn:Eq; [exact HB|].
      exfalso. clear -E Hip Eq HE HA. pose proof (InitState_spec fut e l ip _ HE HA Hip E) as H. rewrite Eq in H. destruct H as (us & _ & H & _). cbn in H. congruence.
    + destruct H as (us & T & A1 & A2 & A3 & A4 & A5 & A6 & A7 & A8 & A9 & A10 & A11 & A12 & A13). exists (i_t m). cbn in HB. destruct HB as [HB1 HB2].
      split; [exact HB1|]. split.
      { unfold bound. rewrite A1. exists (i_t m). split; [exact A11|lra]. }
      right. exists (e_state e'). rewrite A3, skipn_app_len. split; [reflexivity|]. split; [unfold prop_time; rewrite A11; reflexivity|].
      unfold pub_ok. destruct (newest (concat us)) as [x|] eqn:En; destruct A13 as [_ A13]; (eexists _, _; split; [exact A13|]; split; [exact A11|]; split; [discriminate|]).
      * intros Hc. rewrite Hc in T. destruct us; [discriminate En|contradiction].
      * auto.
  - cbn in HA. destruct (RunOnce_spec fut e l HE HA) as (e1 & fs & b & tp & A1 & A2 & A3 & A4 & A5 & A6 & A7 & A8 & A9 & A10 & A11 & A12 & A13).
    rewrite E in A1. injection A1 as <-. unfold bound in HB. rewrite HA in HB. destruct HB as (tp0 & B1 & B2).
    assert (lb <= tp) as Htp.
    { destruct (nil_dec (imu_queue e)) as [Hq|Hq]; [rewrite (A11 Hq) in B1; congruence|]. destruct (A12 Hq) as (ip & m & C1 & C2 & ->).
      destruct (ok_prop _ _ HE) as (ip1 & D1 & _ & _ & _ & D2). rewrite C1 in D1. injection D1 as <-. destruct (D2 HA) as (tp1 & t1 & m1 & D3 & D4 & D5 & D6).
      rewrite B1 in D3. injection D3 as <-. rewrite C2 in D5. injection D5 as <-. cbn in D6. lra. }
    exists tp. split; [exact Htp|]. split; [unfold bound; rewrite A9; exists tp; split; [exact A2|lra]|].
    rewrite A7, skipn_app_len. destruct b; [right|left; reflexivity]. exists (e_state e'). split; [reflexivity|]. split; [unfold prop_time; rewrite A2; reflexivity|].
    unfold pub_ok. assert (imu_queue e <> [] \/ used_some fs) as HU by (apply A5; reflexivity).
    destruct (last_used fs None) as [x|] eqn:EL.
    + exists (r_time x), tp. split; [exact A13|]. split; [exact A2|]. destruct (turns_last tp thr _ _ _ _ _ x A3 HT EL) as [H|[H1 H2]]; [discriminate|]. split; [auto|]. intros Hc. contradiction.
    + assert (imu_queue e <> []) as Hq by (destruct HU as [H|H]; [exact H|destruct (last_none _ H None); congruence]).
      assert (st (e_state e') = Some tp) as Hst by (rewrite A13; destruct (imu_queue e); [congruence|reflexivity]).
      exists tp, tp. split; [exact Hst|]. split; [exact A2|]. split; [intros _; lra|auto].
  - exists lb. split; [lra|]. split; [|auto]. assert (nondec lb (map i_t fut)) as HF.
    { destruct (ok_prop _ _ HE) as (ip & Hip & _ & _ & _ & HR). unfold bound in HB. destruct (e_enabled e).
      - destruct HB as (tp & B1 & B2). destruct (HR eq_refl) as (tp1 & t1 & m & R1 & R2 & R3 & R4). rewrite B1 in R1. injection R1 as <-.
        apply nondec_weak with tp; [exact B2|]. cbn in R4. destruct R4 as [R4 R5]. apply nondec_weak with (i_t m); [exact R4|]. rewrite map_app in R5. eapply nondec_drop; exact R5.
      - rewrite map_app in HB. eapply nondec_drop; exact HB. }
    unfold Clear in E. destruct (e_prop e) as [ip|]; [|discriminate]. cbn in E.
    destruct (e_logger e); [destruct (e_names e)|]; injection E as <-; exact HF.
  - injection E as <-. exists lb. split; [lra|]. split; [exact HB|auto].
  - injection E as <-. exists lb. split; [lra|]. split; [|auto]. apply bound_frame with e; auto; unfold LogPop; destruct (e_pending e), (e_logq e); reflexivity.
  - exists lb. split; [lra|]. split; [|auto]. unfold LogWrite in E. destruct (e_pending e) as [x|]; [|injection E as <-; exact HB].
    apply bind_inv in E. destruct E as (t & _ & E). destruct (e_logger e && log_due (e_rate e) (t - e_lastpub e)); [|injection E as <-; exact HB].
    repeat (apply bind_inv in E; destruct E as (? & _ & E)). injection E as <-. exact HB.
Qed.
Lemma thr_fixed cs cs' thr : map c_fixed cs' = map c_fixed cs -> thr_bound thr cs -> thr_bound thr cs'.
Proof.
  revert cs'. induction cs as [|c cs IH]; intros [|c' cs'] E H; try discriminate; [constructor|]. cbn in E. injection E as E1 E2. inversion H; subst.
  constructor; [|apply IH; auto]. destruct c, c'; cbn in E1; try discriminate; injection E1; intros; cbn in *; congruence.
Qed.
Lemma fixed_nil cs cs' : map c_fixed cs' = map c_fixed cs -> cs = [] -> cs' = [].
Proof. intros E ->. destruct cs'; [reflexivity|discriminate]. Qed.
Lemma run_time thr : 0 <= thr -> forall os e lb, est_ok (imus os) e -> protocol e os -> bound lb (imus os) e -> thr_bound thr (e_corrs e) ->
  nondec lb (map prop_time (published is_filter_op e os)) /\
  Forall (fun s => pub_ok thr (e_corrs e = []) false s) (published is_filter_op e os) /\
  Forall (fun s => pub_ok thr (e_corrs e = []) true s) (published is_run_op e os).
Proof.
  intros Hthr. induction os as [|o os IH]; intros e lb HE HP HB HT; cbn [published]; [cbn; auto|].
  rewrite imus_cons in HE, HB. destruct HP as [HA HP]. destruct (step_safe _ _ _ HE HA) as [(e' & E & HE')|[E _]]; rewrite E; [|cbn; auto].
  destruct (step_time _ e o e' lb thr HE HA E HB HT Hthr) as (lb' & L1 & L2 & L3).
  destruct (step_fixed _ _ _ E) as (_ & FX & _).
  destruct (IH e' lb' HE' (HP _ E) L2 (thr_fixed _ _ _ FX HT)) as (I1 & I2 & I3).
  assert (forall b s, pub_ok thr (e_corrs e' = []) b s -> pub_ok thr (e_corrs e = []) b s) as HM.
  { intros b s (t & tp & P1 & P2 & P3 & P4). exists t, tp. do 3 (split; [assumption|]). intros Hc. apply P4. eapply fixed_nil; eauto. }
  assert (Forall (fun s => pub_ok thr (e_corrs e = []) false s) (published is_filter_op e' os)) as I2' by (eapply Forall_impl; [|exact I2]; apply HM).
  assert (Forall (fun s => pub_ok thr (e_corrs e = []) true s) (published is_run_op e' os)) as I3' by (eapply Forall_impl; [|exact I3]; apply HM).
  unfold step_pub in L3. destruct L3 as [L3|(s & L3 & L4 & L5)].
  - rewrite L3. split; [apply nondec_weak with lb'; auto|]. split; [exact I2'|]. destruct (is_run_op o) eqn:Er; [|exact I3'].
    destruct o; try discriminate. cbn in L3. rewrite L3. exact I3'.
  - rewrite L3. cbn [app map nondec]. split; [split; [rewrite L4; exact L1|rewrite L4; exact I1]|]. split.
    + constructor; [|exact I2']. destruct L5 as (t & tp & P1 & P2 & P3 & P4). exists t, tp. split; [exact P1|]. split; [exact P2|]. split; [discriminate|exact P4].
    + destruct (is_run_op o) eqn:Er; [|exact I3']. destruct o; try discriminate. cbn in L3. rewrite L3. constructor; [exact L5|exact I3'].
Qed.
Lemma nondec_exists l : sorted l -> exists lb, nondec lb l.
Proof. destruct l as [|x l]; cbn; [intros _; exists 0; exact I|]. intros H. exists x. split; [lra|exact H]. Qed.
Lemma thm_time f os thr : config_ok f -> imu_stream (imus os) -> protocol (build f) os -> 0 <= thr -> Forall (fun g => cfg_thr g <= thr) (f_corrs f) ->
  sorted (map prop_time (published is_filter_op (build f) os)) /\
  (forall s, In s (published is_run_op (build f) os) -> exists t tp, st s = Some t /\ stprop s = Some tp /\ tp - thr <= t) /\
  (f_corrs f = [] -> forall s, In s (published is_filter_op (build f) os) -> st s = stprop s).
Proof.
  intros HC HS HP Hthr HT. pose proof (build_ok f _ HC HS) as HE. destruct (nondec_exists _ (proj2 HS)) as [lb Hlb].
  destruct (run_time thr Hthr os (build f) lb HE HP) as (A & B & C).
  - rewrite build_eq. exact Hlb.
  - rewrite build_eq. cbn. apply Forall_map. eapply Forall_impl; [|exact HT]. intros [g|g] Hg; exact Hg.
  - rewrite Forall_forall in B, C. split; [eapply nondec_sorted; exact A|]. split.
    + intros s Hs. destruct (C s Hs) as (t & tp & P1 & P2 & P3 & _). exists t, tp. auto.
    + intros Hc s Hs. destruct (B s Hs) as (t & tp & P1 & P2 & _ & P4). rewrite P1, P2, P4; [reflexivity|]. rewrite build_eq. cbn. rewrite Hc. reflexivity.
Qed.
