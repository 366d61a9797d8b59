(** Proofs: the invariant of the whole estimator. *)
From Coq Require Import Reals ZArith List Bool Arith Lia Lra.
From Verif Require Import Res Vec3 Mat MatInv Psd Spec LieGroup LieSO3 LieSEK RobotState StateProofs Inekf SpecFilter InekfThms Imu Propagation SpecProp
  PropagationThms ImuRest ImuThms ImuNeg Queue VelCorr LegCorr SpecCorr VelThms PsdBlk LegThms LegUpd LegHist Estimator SpecEst.
Import ListNotations.
Local Open Scope R_scope.

(** ** corrections *)
Definition is_CLeg (c : corr_obj) : bool := match c with CLeg _ => true | _ => false end.
Definition n_leg (cs : list corr_obj) : nat := length (filter is_CLeg cs).
Fixpoint leg_of (cs : list corr_obj) : option leg_corr :=
  match cs with [] => None | CLeg c :: _ => Some c | _ :: cs => leg_of cs end.
Definition corr_noise (c : corr_obj) : Prop := match c with CVel c => vel_noise_ok c | CLeg c => leg_noise_ok c end.
Definition contacts (o : option leg_corr) (h : heap) (s : rstate) (ids : list nat) : Prop :=
  match o with Some c => tracks c h s ids | None => ids = [] /\ wfp 2 s /\ scmap s = repeat None 5 end.
Definition core (o : option leg_corr) (h : heap) (s : rstate) : Prop :=
  exists ids, contacts o h s ids /\ psd (sP s) /\ contact_noise (2 + length ids) (sQc s).

Lemma contacts_wfp o h s ids : contacts o h s ids -> wfp (2 + length ids) s.
Proof. destruct o; cbn; [intros T; apply T|intros (-> & W & _); exact W]. Qed.
Lemma contacts_meta o h s s' ids : contacts o h s ids -> wfp (2 + length ids) s' -> scmap s' = scmap s -> contacts o h s' ids.
Proof.
  destruct o as [c|]; cbn.
  - intros [A1 A2 A3 A4 A5 A6 A7] W E. split; auto. congruence.
  - intros (-> & W & E1) W' E. split; auto. split; [exact W'|congruence].
Qed.
Lemma core_meta o h s s' ids : contacts o h s ids -> contact_noise (2 + length ids) (sQc s) ->
  wfp (2 + length ids) s' -> scmap s' = scmap s -> sQc s' = sQc s -> psd (sP s') -> core o h s'.
Proof. intros C N W E1 E2 P. exists ids. split; [eapply contacts_meta; eauto|]. split; [auto|congruence]. Qed.
Lemma core_sound o h s t : core o h s -> st s = Some t -> sound s.
Proof. intros (ids & C & P & _) H. exists (length ids), t. split; [eapply contacts_wfp; eauto|auto]. Qed.

(** ** one propagation *)
Lemma prop_step o h ip s tp m : core o h s -> stprop s = Some tp -> noise_ok ip -> ip_prev ip = Some m -> tp <= i_t m ->
  exists b ip' s', Propagate ip s = Ok (b, ip', s') /\ core o h s' /\
    match ip_queue ip with
    | [] => b = false /\ ip' = ip /\ s' = s
    | x :: q => b = true /\ ip' = set_prev (set_queue ip q) x /\ stprop s' = Some (i_t m) /\ st s' = Some (i_t m)
    end.
Proof.
  intros (ids & C & HP & HN) Ht Hn Hm Hle. unfold Propagate. destruct (ip_queue ip) as [|x q] eqn:Eq.
  { do 3 eexists. split; [reflexivity|]. split; [exists ids; auto|auto]. }
  rewrite Hm. cbn [of_opt bind]. set (ip1 := set_prev (set_queue ip q) x).
  pose proof (contacts_wfp _ _ _ _ C) as W. pose proof (step_eq _ ip1 m s tp W Ht) as E. cbv zeta in E. rewrite E. cbn [bind].
  match type of E with _ = Ok ?x => set (s' := x) in * end.
  destruct (step_wfp _ ip1 m s tp s' W Ht E) as (W' & T1 & T2 & _ & Q' & M' & _).
  do 3 eexists. split; [reflexivity|]. split; [|auto].
  apply (core_meta o h s s' ids); auto. apply (thm_step_psd _ ip1 m s tp s' W Ht); auto.
Qed.

(** ** one correction *)
Lemma vel_step o h c s a tp t : core o h s -> vel_noise_ok c -> stprop s = Some tp -> st s = Some t ->
  exists b c' s' t', vel_Correct c s a = Ok (b, c', s') /\ core o h s' /\ vel_noise_ok c' /\ stprop s' = Some tp /\ st s' = Some t'.
Proof.
  intros (ids & C & HP & HN) Hn Ht Hs. pose proof (contacts_wfp _ _ _ _ C) as W.
  destruct (thm_vel_total _ c s a W HP Hn) as (b & c' & s' & E & W' & P'); [eauto|].
  destruct (vel_Correct_meta _ _ _ _ _ _ _ W E) as (_ & M & Q).
  destruct (vel_Correct_spec _ _ _ _ _ _ E) as (Ec & f & _ & _ & _ & F).
  assert (exists t', stprop s' = Some tp /\ st s' = Some t') as [t' [T1 T2]].
  { destruct (f_used f) as [m|].
    - destruct F as [_ F]. destruct (vel_update_time _ _ _ _ _ W F) as [_ M']. destruct M' as (_ & _ & M1 & M2 & _).
      exists (vm_t m). rewrite M1, M2. auto.
    - destruct F as [_ ->]. eauto. }
  exists b, c', s', t'. split; [exact E|]. split; [eapply core_meta; eauto|]. split; [|auto]. rewrite Ec. exact Hn.
Qed.
Lemma leg_step c h s a tp t : core (Some c) h s -> leg_noise_ok c -> stprop s = Some tp -> st s = Some t ->
  exists b c' h' s' t', leg_Correct c h s a = Ok (b, c', h', s') /\ core (Some c') h' s' /\ leg_noise_ok c' /\ stprop s' = Some tp /\ st s' = Some t'.
Proof.
  intros (ids & C & HP & HN) Hn Ht Hs. cbn in C.
  destruct (leg_Correct_total c h s ids a C HP Hn) as (b & c' & h' & s' & ids' & E & T' & P'); [eauto|].
  destruct (leg_Correct_spec _ _ _ _ _ _ _ _ E) as (f & _ & _ & _ & F). destruct (f_used f) as [m|].
  - destruct F as [-> (q & E1 & E2)].
    destruct (leg_update_inv _ _ _ _ ids _ _ _ (tracks_queue c q h s ids C) E1) as (s1 & ids2 & m' & A1 & A2 & A3 & A4 & A5 & A6).
    destruct A5 as (_ & _ & M1 & M2 & _). destruct (lb_time _ _ _ _ _ _ _ A3) as [B1 B2].
    exists true, c', h', s', (lm_t m). split; [exact E|]. split.
    { exists ids2. split; [exact A4|]. split; [exact P'|]. apply A6; [apply Hn|exact HN]. }
    split; [rewrite A1; exact Hn|]. rewrite B1, B2, M1, M2. auto.
  - destruct F as (-> & Ec & -> & ->). exists false, c', h, s, t. split; [exact E|]. split.
    { exists ids. rewrite Ec. split; [apply tracks_queue; exact C|auto]. }
    split; [rewrite Ec; exact Hn|auto].
Qed.

Definition pick (ctx : option leg_corr) (cs : list corr_obj) : option leg_corr := match ctx with Some c => Some c | None => leg_of cs end.
Definition n_ctx (ctx : option leg_corr) : nat := match ctx with Some _ => 1 | None => 0 end.
Lemma leg_of_none cs : n_leg cs = 0%nat -> leg_of cs = None.
Proof. induction cs as [|[c|c] cs IH]; cbn; auto. discriminate. Qed.

Lemma correct_all_ok : forall cs ctx h s l tp t, (n_leg cs + n_ctx ctx <= 1)%nat -> Forall corr_noise cs ->
  core (pick ctx cs) h s -> stprop s = Some tp -> st s = Some t ->
  exists b cs' h' s' t', correct_all cs h s l = Ok (b, cs', h', s') /\ n_leg cs' = n_leg cs /\ Forall corr_noise cs' /\
    core (pick ctx cs') h' s' /\ stprop s' = Some tp /\ st s' = Some t'.
Proof.
  induction cs as [|c cs IH]; intros ctx h s l tp t Hl HN HC Ht Hs; cbn [correct_all].
  { exists false, [], h, s, t. auto 10. }
  inversion HN as [|x y HNc HNs]; subst. destruct c as [c|c]; cbn [corr_Correct].
  - destruct (vel_step _ h c s (a_vel (hd_arr l)) tp t HC HNc Ht Hs) as (b & c' & s1 & t1 & E & C1 & N1 & T1 & S1). rewrite E. cbn [bind].
    destruct (IH ctx h s1 (tl_arr l) tp t1) as (b2 & cs2 & h2 & s2 & t2 & E2 & L2 & N2 & C2 & T2 & S2); auto.
    rewrite E2. cbn [bind]. exists (b || b2), (CVel c' :: cs2), h2, s2, t2. split; [reflexivity|].
    split; [exact L2|]. split; [constructor; auto|]. split; [|auto].
    unfold pick in *. destruct ctx; exact C2.
  - assert (ctx = None /\ n_leg cs = 0%nat) as [-> L0].
    { unfold n_leg in Hl. cbn in Hl. destruct ctx; cbn in Hl; [lia|]. split; [reflexivity|]. unfold n_leg. lia. }
    cbn [pick leg_of] in HC.
    destruct (leg_step c h s (a_leg (hd_arr l)) tp t HC HNc Ht Hs) as (b & c' & h1 & s1 & t1 & E & C1 & N1 & T1 & S1). rewrite E. cbn [bind].
    destruct (IH (Some c') h1 s1 (tl_arr l) tp t1) as (b2 & cs2 & h2 & s2 & t2 & E2 & L2 & N2 & C2 & T2 & S2); auto.
    { rewrite L0. cbn. lia. }
    rewrite E2. cbn [bind]. exists (b || b2), (CLeg c' :: cs2), h2, s2, t2. split; [reflexivity|].
    split; [unfold n_leg in *; cbn; congruence|]. split; [constructor; auto|]. auto.
Qed.

(** ** initialisation *)
Definition put_vel (s : rstate) (v : V3) (t : R) : rstate := set_time (set_X s (put (sX s) 0 3 (ofV3 v))) t.
Lemma put_vel_X K s v t : wfp K s -> sX (put_vel s v t) = sek K (rot (sX s)) (fun k => if Nat.eqb k 0 then v else col (sX s) k).
Proof.
  intros [[WX _ _ _ _] HK _ _ _]. unfold put_vel. srs. rewrite (SEK_form K _ WX) at 1.
  apply (put_col_sek K (rot (sX s)) (col (sX s)) 0 v). lia.
Qed.
Lemma put_vel_wfp K s v t : wfp K s -> wfp K (put_vel s v t).
Proof.
  intros W. pose proof (put_vel_X K s v t W) as E. destruct W as [[WX WT1 WT2 WP1 WP2] HK HT HQ1 HQ2]. split; auto. split; auto.
  rewrite E. apply SEK_sek, WX.
Qed.
Lemma set_velocity_ok K s v t : wfp K s -> (let* s := set_velocity s v in Ok (set_time s t)) = Ok (put_vel s v t).
Proof.
  intros [[WX _ _ _ _] HK _ _ _]. unfold set_velocity. rewrite cput_ok; [reflexivity| |].
  - rewrite (sek_rows _ _ WX). rewrite nr_ofV3; lia.
  - rewrite (sek_cols _ _ WX). rewrite nc_ofV3; lia.
Qed.
Lemma get_rotation_ok K s : wfp K s -> get_rotation s = Ok (rot (sX s)).
Proof. intros [[WX _ _ _ _] HK _ _ _]. unfold get_rotation. rewrite cgetM3_ok; [reflexivity| |]; [rewrite (sek_rows _ _ WX)|rewrite (sek_cols _ _ WX)]; lia. Qed.

(** the newest of a non-empty list *)
Lemma vel_init_ok K c s arr x q : wfp K s -> vc_queue c ++ arr = x :: q ->
  vel_initialize c s arr = Ok (true, vc_set_queue c [], put_vel s (rot (sX s) *v vm_v (last (x :: q) x)) (vm_t (last (x :: q) x))).
Proof.
  intros W E. unfold vel_initialize. rewrite E. rewrite (get_rotation_ok K) by auto. cbn [bind].
  pose proof (set_velocity_ok K s (rot (sX s) *v vm_v (last (x :: q) x)) (vm_t (last (x :: q) x)) W) as H.
  destruct (set_velocity s _) as [s1|]; cbn [bind] in *; [|discriminate]. congruence.
Qed.
Lemma leg_init_ok K c s arr x q w : wfp K s -> sbav s = Some w -> lc_queue c ++ arr = x :: q ->
  leg_initialize c s arr = Ok (true, lc_set_queue c [], put_vel s (rot (sX s) *v lm_initv (last (x :: q) x) w) (lm_t (last (x :: q) x))).
Proof.
  intros W Ew E. unfold leg_initialize. rewrite E. unfold get_body_angular_velocity. rewrite Ew. cbn [of_opt bind].
  rewrite (get_rotation_ok K) by auto. cbn [bind].
  pose proof (set_velocity_ok K s (rot (sX s) *v lm_initv (last (x :: q) x) w) (lm_t (last (x :: q) x)) W) as H.
  destruct (set_velocity s _) as [s1|]; cbn [bind] in *; [|discriminate]. congruence.
Qed.

(** what a spin does: with at least one measurement (queued or arriving) it uses one of
    them; the rest of the queue is what arrived later *)
Lemma vel_spin_ok K : forall sched c s, wfp K s ->
  (vc_queue c ++ concat sched <> [] -> exists m used q, vc_queue c ++ concat sched = used ++ q /\ used <> [] /\ m = last used m /\
     vel_spin c s sched = Ok (vc_set_queue c q, put_vel s (rot (sX s) *v vm_v m) (vm_t m))) /\
  (vc_queue c ++ concat sched = [] -> vel_spin c s sched = Fail Spin).
Proof.
  induction sched as [|b bs IH]; intros c s W; cbn [concat].
  - rewrite app_nil_r. split.
    + intros H. destruct (vc_queue c) as [|x q] eqn:E; [congruence|]. exists (last (x :: q) x), (x :: q), [].
      split; [rewrite app_nil_r; reflexivity|]. split; [discriminate|]. split.
      { clear. revert x. induction q as [|y q IH]; intros x; [reflexivity|]. change (last (x :: y :: q) x) with (last (y :: q) x).
        assert (forall d d', last (y :: q) d = last (y :: q) d') as HD by (clear; revert y; induction q; intros; [reflexivity|apply IHq]).
        cbn [last]. apply HD. }
      cbn [vel_spin hd_batch tl_batch]. rewrite (vel_init_ok K c s [] x q W) by (rewrite app_nil_r; exact E). cbn [bind concat]. cbn [vc_queue vc_set_queue app]. reflexivity.
    + intros H. cbn [vel_spin hd_batch]. unfold vel_initialize. rewrite app_nil_r, H. reflexivity.
  - destruct (vc_queue c ++ b) as [|x q] eqn:E.
    + rewrite app_assoc, E. cbn [app]. 
      assert (vel_spin c s (b :: bs) = vel_spin (vc_set_queue c []) s bs) as Eq.
      { cbn [vel_spin hd_batch]. unfold vel_initialize. rewrite E. reflexivity. }
      rewrite Eq. destruct (IH (vc_set_queue c []) s W) as [H1 H2]. cbn [vc_queue vc_set_queue app] in H1, H2.
      split; [intros H; exact (H1 H)|exact H2].
    + rewrite app_assoc, E. split; [|discriminate]. intros _. exists (last (x :: q) x), (x :: q), (concat bs).
      split; [reflexivity|]. split; [discriminate|]. split.
      { clear. revert x. induction q as [|y q IH]; intros x; [reflexivity|].
        assert (forall d d', last (y :: q) d = last (y :: q) d') as HD by (clear; revert y; induction q; intros; [reflexivity|apply IHq]).
        change (last (x :: y :: q) x) with (last (y :: q) x). cbn [last]. apply HD. }
      cbn [vel_spin hd_batch tl_batch]. rewrite (vel_init_ok K c s b x q W E). reflexivity.
Qed.
Lemma leg_spin_ok K w : forall sched c s, wfp K s -> sbav s = Some w ->
  (lc_queue c ++ concat sched <> [] -> exists m used q, lc_queue c ++ concat sched = used ++ q /\ used <> [] /\ m = last used m /\
     leg_spin c s sched = Ok (lc_set_queue c q, put_vel s (rot (sX s) *v lm_initv m w) (lm_t m))) /\
  (lc_queue c ++ concat sched = [] -> leg_spin c s sched = Fail Spin).
Proof.
  induction sched as [|b bs IH]; intros c s W Ew; cbn [concat].
  - rewrite app_nil_r. split.
    + intros H. destruct (lc_queue c) as [|x q] eqn:E; [congruence|]. exists (last (x :: q) x), (x :: q), [].
      split; [rewrite app_nil_r; reflexivity|]. split; [discriminate|]. split.
      { clear. revert x. induction q as [|y q IH]; intros x; [reflexivity|]. change (last (x :: y :: q) x) with (last (y :: q) x).
        assert (forall d d', last (y :: q) d = last (y :: q) d') as HD by (clear; revert y; induction q; intros; [reflexivity|apply IHq]).
        cbn [last]. apply HD. }
      cbn [leg_spin hd_batch tl_batch]. rewrite (leg_init_ok K c s [] x q w W) by (try rewrite app_nil_r; auto). cbn [bind concat]. cbn [lc_queue lc_set_queue app]. reflexivity.
    + intros H. cbn [leg_spin hd_batch]. unfold leg_initialize. rewrite app_nil_r, H. reflexivity.
  - destruct (lc_queue c ++ b) as [|x q] eqn:E.
    + rewrite app_assoc, E. cbn [app]. 
      assert (leg_spin c s (b :: bs) = leg_spin (lc_set_queue c []) s bs) as Eq.
      { cbn [leg_spin hd_batch]. unfold leg_initialize. rewrite E. reflexivity. }
      rewrite Eq. destruct (IH (lc_set_queue c []) s W Ew) as [H1 H2]. cbn [lc_queue lc_set_queue app] in H1, H2.
      split; [intros H; exact (H1 H)|exact H2].
    + rewrite app_assoc, E. split; [|discriminate]. intros _. exists (last (x :: q) x), (x :: q), (concat bs).
      split; [reflexivity|]. split; [discriminate|]. split.
      { clear. revert x. induction q as [|y q IH]; intros x; [reflexivity|].
        assert (forall d d', last (y :: q) d = last (y :: q) d') as HD by (clear; revert y; induction q; intros; [reflexivity|apply IHq]).
        change (last (x :: y :: q) x) with (last (y :: q) x). cbn [last]. apply HD. }
      cbn [leg_spin hd_batch tl_batch]. rewrite (leg_init_ok K c s b x q w W Ew E). reflexivity.
Qed.

Lemma nil_dec {A} (l : list A) : {l = []} + {l <> []}.
Proof. destruct l; [left|right]; congruence. Qed.
(** all corrections of a fresh filter *)
Lemma spin_all_ok K w : forall cs s l, wfp K s -> sbav s = Some w ->
  (fed_all cs l -> exists cs' s', spin_all cs s l = Ok (cs', s')) /\
  (forall cs' s', spin_all cs s l = Ok (cs', s') -> fed_all cs l /\
     wfp K s' /\ n_leg cs' = n_leg cs /\ (Forall corr_noise cs -> Forall corr_noise cs') /\
     (forall c', leg_of cs' = Some c' -> exists c, leg_of cs = Some c /\ forall id, lc_map c' id = lc_map c id) /\
     sP s' = sP s /\ scmap s' = scmap s /\ sQc s' = sQc s /\ sbav s' = sbav s /\ stprop s' = stprop s /\ sTheta s' = sTheta s /\
     rot (sX s') = rot (sX s) /\ (forall k, (1 <= k < K)%nat -> col (sX s') k = col (sX s) k) /\
     (exists t', st s' = Some t' \/ (st s' = st s /\ cs = []))) /\
  (~ fed_all cs l -> spin_all cs s l = Fail Spin).
Proof.
  induction cs as [|c cs IH]; intros s l W Ew; cbn [spin_all fed_all].
  { split; [intros _; eauto|]. split; [|tauto]. intros cs' s' [= <- <-]. repeat (split; [auto; fail|]). 
    split; [discriminate|]. do 8 (split; [auto; fail|]). exists 0. auto. }
  assert (forall v t, wfp K (put_vel s v t) /\ sbav (put_vel s v t) = Some w) as HV by (intros; split; [apply put_vel_wfp; auto|exact Ew]).
  assert ((fed c (hd_arr l) /\ exists c' v t, corr_spin c s (hd_arr l) = Ok (c', put_vel s v t) /\ is_CLeg c' = is_CLeg c /\ (corr_noise c -> corr_noise c') /\
     (forall x, c = CLeg x -> exists y, c' = CLeg y /\ forall id, lc_map y id = lc_map x id)) \/
     (~ fed c (hd_arr l) /\ corr_spin c s (hd_arr l) = Fail Spin)) as HC.
  { destruct c as [c|c]; cbn [fed corr_spin].
    - destruct (vel_spin_ok K (a_vel (hd_arr l)) c s W) as [H1 H2].
      destruct (nil_dec (vc_queue c ++ concat (a_vel (hd_arr l)))) as [E|E].
      + right. split; [tauto|]. rewrite H2; auto.
      + left. split; [auto|]. destruct (H1 E) as (m & u & q & _ & _ & _ & Es). rewrite Es. cbn [bind]. do 3 eexists. split; [reflexivity|].
        split; [reflexivity|]. split; [auto|discriminate].
    - destruct (leg_spin_ok K w (a_leg (hd_arr l)) c s W Ew) as [H1 H2].
      destruct (nil_dec (lc_queue c ++ concat (a_leg (hd_arr l)))) as [E|E].
      + right. split; [tauto|]. rewrite H2; auto.
      + left. split; [auto|]. destruct (H1 E) as (m & u & q & _ & _ & _ & Es). rewrite Es. cbn [bind]. do 3 eexists. split; [reflexivity|].
        split; [reflexivity|]. split; [auto|]. intros x [= ->]. eexists. split; reflexivity. }
  destruct HC as [[Hf (c' & v & t & E & L & N & HL)]|[Hf E]].
  - destruct (HV v t) as [W1 E1]. destruct (IH (put_vel s v t) (tl_arr l) W1 E1) as (H1 & H2 & H3). rewrite E. cbn [bind]. split; [|split].
    + intros [_ F]. destruct (H1 F) as (cs' & s' & E2). rewrite E2. cbn [bind]. eauto.
    + intros cs0 s0 E0. apply bind_inv in E0. destruct E0 as ([cs' s'] & E2 & E0). injection E0 as <- <-.
      destruct (H2 _ _ E2) as (F & A1 & A2 & A3 & A4 & A5 & A6 & A7 & A8 & A9 & A10 & A11 & A12 & A13).
      split; [split; auto|]. split; [exact A1|]. split; [unfold n_leg in *; cbn [filter]; rewrite L; destruct (is_CLeg c); cbn; congruence|].
      split; [intros HN; inversion HN; subst; constructor; auto|]. split.
      { intros x Hx. destruct c as [c|c].
        - cbn [leg_of]. destruct c'; [|discriminate]. cbn [leg_of] in Hx. apply A4. exact Hx.
        - destruct (HL c eq_refl) as (y & -> & Hy). cbn [leg_of] in Hx |- *. injection Hx as <-. eauto. }
      split; [exact A5|]. split; [exact A6|]. split; [exact A7|]. split; [exact A8|]. split; [exact A9|]. split; [exact A10|].
      rewrite A11. pose proof (put_vel_X K s v t W) as EX. split.
      { rewrite EX. apply rot_aff. }
      split. { intros k Hk. rewrite A12 by exact Hk. rewrite EX, col_aff by lia. destruct (Nat.eqb_spec k 0); [lia|reflexivity]. }
      destruct A13 as [t' [A13|[A13 _]]]; [exists t'; auto|]. exists t. left. rewrite A13. reflexivity.
    + intros HF. rewrite H3; [reflexivity|]. tauto.
  - rewrite E. cbn [bind]. split; [tauto|]. split; [discriminate|reflexivity].
Qed.
