(** Proofs about VelocityCorrection. *)
From Coq Require Import Reals ZArith List Bool Lia Lra.
From Verif Require Import Res Vec3 Mat LieGroup MatInv Psd Spec LieSO3 LieSEK LieThms RobotState StateProofs StateMisc Inekf SpecFilter
  InekfProofs InekfThms Imu Propagation SpecProp Blk PropagationProofs PropagationThms Queue VelCorr LegCorr SpecCorr ImuNeg.
Import ListNotations.
Local Open Scope R_scope.

(** ** the queue *)
Lemma drain_q_spec {A} (st : A -> bool) q : forall r q', drain_q st q = (r, q') ->
  exists d, q = d ++ match r with Some m => [m] | None => [] end ++ q' /\ Forall (fun m => st m = true) d /\
    (forall m, r = Some m -> st m = false) /\ (r = None -> q' = []).
Proof.
  induction q as [|m q IH]; intros r q' E; cbn in E.
  - injection E as <- <-. exists []. repeat split; auto. intros; discriminate.
  - destruct (st m) eqn:Em.
    + destruct (IH _ _ E) as (d & E1 & E2 & E3 & E4). exists (m :: d). cbn. rewrite E1 at 1. auto.
    + injection E as <- <-. exists []. cbn. repeat split; auto; [|discriminate]. intros ? [= <-]; auto.
Qed.
Lemma drain_spec {A} (st : A -> bool) sched : forall q r q' bs, drain st q sched = (r, q', bs) ->
  exists d, q ++ concat sched = d ++ match r with Some m => [m] | None => [] end ++ q' ++ concat bs /\ Forall (fun m => st m = true) d /\
    (forall m, r = Some m -> st m = false).
Proof.
  induction sched as [|b bs0 IH]; intros q r q' bs E; cbn in E.
  - destruct (drain_q st q) as [r0 q0] eqn:Eq. injection E as <- <- <-. destruct (drain_q_spec st q _ _ Eq) as (d & E1 & E2 & E3 & E4).
    exists d. cbn. rewrite !app_nil_r. auto.
  - cbn [concat]. rewrite app_assoc. destruct (q ++ b) as [|m q1] eqn:Eqb.
    + injection E as <- <- <-. exists []. cbn. repeat split; auto; discriminate.
    + destruct (st m) eqn:Em.
      * destruct (IH _ _ _ _ E) as (d & E1 & E2 & E3). exists (m :: d). cbn. rewrite E1. auto.
      * injection E as <- <- <-. exists []. cbn. repeat split; auto. intros ? [= <-]; auto.
Qed.
Lemma hd_tl_concat {A} (l : list (list A)) : hd_batch l ++ concat (tl_batch l) = concat l.
Proof. destruct l; reflexivity. Qed.

Lemma too_old_true thr tp t : too_old thr tp t = true <-> stale thr tp t.
Proof. unfold too_old, stale. destruct (Rlt_dec _ _); split; intros; try discriminate; auto; lra. Qed.
Lemma too_old_false thr tp t : too_old thr tp t = false <-> ~ stale thr tp t.
Proof. rewrite <- too_old_true. destruct (too_old thr tp t); split; congruence. Qed.

(** ** one call *)
Lemma vel_Correct_spec c s sched b c' s' : vel_Correct c s sched = Ok (b, c', s') ->
  c' = vc_set_queue c (vc_queue c') /\
  exists f, vc_queue c ++ concat sched = consumed f ++ vc_queue c' /\
  (forall m, In m (consumed f) -> exists tp, stprop s = Some tp) /\
  (forall tp, stprop s = Some tp ->
     Forall (fun m => stale (vc_thr c) tp (vm_t m)) (f_dropped f) /\
     (forall m, f_used f = Some m -> ~ stale (vc_thr c) tp (vm_t m))) /\
  match f_used f with
  | None => b = false /\ s' = s
  | Some m => b = true /\ vel_update c m s = Ok s'
  end.
Proof.
  unfold vel_Correct. rewrite <- (hd_tl_concat sched), app_assoc. destruct (vc_queue c ++ hd_batch sched) as [|m q] eqn:Eq.
  - intros [= <- <- <-]. split; [reflexivity|]. exists (mkFate [] None). cbn. repeat split; auto; [tauto|discriminate].
  - destruct (get_propagate_time s) as [tp|] eqn:Et; cbn [bind]; [|discriminate].
    unfold get_propagate_time in Et. destruct (stprop s) as [tp'|] eqn:Ep; [|discriminate]. injection Et as ->.
    destruct (not_past tp (vm_t m)).
    { intros [= <- <- <-]. split; [reflexivity|]. exists (mkFate [] None). cbn. repeat split; auto. tauto. discriminate. }
    destruct (too_old (vc_thr c) tp (vm_t m)) eqn:Eo.
    + destruct (drain _ q (tl_batch sched)) as [[r q1] bs] eqn:Ed.
      destruct (drain_spec _ _ _ _ _ _ Ed) as (d & E1 & E2 & E3).
      assert (Forall (fun m => stale (vc_thr c) tp (vm_t m)) (m :: d)) as HF.
      { constructor; [apply too_old_true; auto|]. eapply Forall_impl; [|exact E2]. cbn. intros a. apply too_old_true. }
      destruct r as [m1|]; intros E.
      * apply bind_inv in E. destruct E as (s1 & E4 & E5). injection E5 as <- <- <-. split; [reflexivity|].
        exists (mkFate (m :: d) (Some m1)). cbn. rewrite E1. split; [rewrite <- !app_assoc; reflexivity|].
        split; [eauto|]. split; [|auto]. intros tp0 [= <-]. split; [auto|]. intros ? [= <-]. apply too_old_false, E3; auto.
      * injection E as <- <- <-. split; [reflexivity|].
        exists (mkFate (m :: d) None). cbn. rewrite E1. split; [rewrite <- !app_assoc; reflexivity|].
        split; [eauto|]. split; [|auto]. intros tp0 [= <-]. split; [auto|]. intros; discriminate.
    + intros E. apply bind_inv in E. destruct E as (s1 & E4 & E5). injection E5 as <- <- <-. split; [reflexivity|].
      exists (mkFate [] (Some m)). cbn. split; [auto|]. split; [eauto|]. split; [|auto].
      intros tp0 [= <-]. split; [auto|]. intros ? [= <-]. apply too_old_false; auto.
Qed.

Lemma vel_H_eq K : cput (mO 3 (9 + 3 * K)) 0 3 (ofM3 mid) = Ok (vel_H K).
Proof.
  rewrite cput_ok by (mdim; lia). f_equal. apply mat_ext; [mdim|mdim|]; unfold vel_H; mdim. intros i j Hi Hj.
  rewrite ent_mk by auto.
  destruct (le_lt_dec 3 j) as [L|L]; [destruct (le_lt_dec 6 j) as [L2|L2]|].
  - rewrite ent_put_out, ent_O by (mdim; lia). caseb. reflexivity.
  - rewrite ent_put_in by (mdim; lia). rewrite ent_ofM3 by lia.
    replace j with (3 + (j - 3))%nat at 2 by lia. generalize (j - 3)%nat, (ltac:(lia) : (j - 3 < 3)%nat). intros k Hk.
    rewrite Nat.sub_0_r. destruct i as [|[|[|i]]], k as [|[|[|k]]]; try lia; reflexivity.
  - rewrite ent_put_out, ent_O by (mdim; lia). caseb. reflexivity.
Qed.

Lemma vel_update_eq K c m s : wfp K s ->
  vel_update c m s = CorrectRightInvariant (vel_innovation s (vc_R c *v (vc_scale c *s vm_v m))) (vel_H K)
                       (vel_N s (vc_cov c)) (set_time s (vm_t m)) (vc_err c).
Proof.
  intros [[HX HT1 HT2 HP1 HP2] HK Hty HQ1 HQ2]. unfold vel_update, dimP, get_world_rotation, get_rotation, get_velocity. srs.
  rewrite HP2, vel_H_eq. cbn [bind]. destruct HX as [X1 X2 _ _].
  rewrite cgetM3_ok by lia. cbn [bind]. rewrite Hty. cbn [bind].
  rewrite cgetV3_ok by lia. cbn [bind]. unfold vel_innovation, vel_N, rot, col. rewrite mv_mul. reflexivity.
Qed.

Lemma thm_vel_fates calls : forall c outs c', vel_calls c calls = Ok (outs, c') ->
  exists fates, Forall3 (vel_fate_ok c) calls outs fates /\
    vc_queue c ++ concat (map (fun k => concat (k_sched k)) calls) = concat (map consumed fates) ++ vc_queue c'.
Proof.
  induction calls as [|k calls IH]; intros c outs c' E; cbn [vel_calls] in E.
  - injection E as <- <-. exists []. split; [constructor|]. cbn. rewrite app_nil_r. reflexivity.
  - apply bind_inv in E. destruct E as ([[b c1] s1] & E1 & E). apply bind_inv in E. destruct E as ([outs1 c2] & E2 & E3).
    injection E3 as <- <-. destruct (vel_Correct_spec _ _ _ _ _ _ E1) as (Ec & f & F1 & F2 & F3 & F4).
    destruct (IH _ _ _ E2) as (fs & G1 & G2). exists (f :: fs). split.
    + constructor.
      * split; [exact F2|]. split; [exact F3|]. cbn [fst snd]. destruct (f_used f); [|exact F4]. destruct F4 as [-> F4]. split; [reflexivity|].
        intros K W. red. rewrite <- (vel_update_eq K) by auto. exact F4.
      * clear - G1 Ec. rewrite Ec in G1. induction G1; constructor; auto.
    + cbn [map concat]. rewrite app_assoc, F1, <- !app_assoc. f_equal. exact G2.
Qed.

(** ** completeness: a usable sample at the front of the queue is used *)
Lemma thm_vel_progress c s m q sched tp : vc_queue c ++ hd_batch sched = m :: q -> stprop s = Some tp ->
  tp - vc_thr c <= vm_t m < tp ->
  vel_Correct c s sched = (let* s' := vel_update c m s in Ok (true, vc_set_queue c (q ++ concat (tl_batch sched)), s')).
Proof.
  intros E Et [H1 H2]. unfold vel_Correct. rewrite E. unfold get_propagate_time. rewrite Et. cbn [of_opt bind].
  unfold not_past. destruct (Rle_dec _ _); [lra|]. 
  assert (too_old (vc_thr c) tp (vm_t m) = false) as -> by (apply too_old_false; unfold stale; lra). reflexivity.
Qed.

(** ** totality *)
Lemma ofM3_mult A B : ofM3 (A *m B) = ofM3 A *M ofM3 B.
Proof.
  apply mat_ext; [mdim|mdim|]. intros i j Hi Hj. mdim. rewrite ent_mult, ent_ofM3 by auto. mdim.
  cbn [sum]. rewrite !ent_ofM3 by lia. destruct i as [|[|[|]]], j as [|[|[|]]]; try lia; cbn; ring.
Qed.
Lemma ofM3_tr A : ofM3 (mtr A) = mT (ofM3 A).
Proof.
  apply mat_ext; [mdim|mdim|]. intros i j Hi Hj. mdim. rewrite ent_T, !ent_ofM3 by auto.
  destruct i as [|[|[|]]], j as [|[|[|]]]; try lia; reflexivity.
Qed.
Lemma ofM3_add A B : ofM3 (A +m B) = ofM3 A +M ofM3 B.
Proof.
  apply mat_ext; [mdim|mdim|]. intros i j Hi Hj. mdim. rewrite ent_plus, !ent_ofM3 by (mdim; auto).
  destruct i as [|[|[|]]], j as [|[|[|]]]; try lia; reflexivity.
Qed.
Lemma ofM3_id : ofM3 mid = meye 3.
Proof.
  apply mat_ext; [mdim|mdim|]. intros i j Hi Hj. mdim. rewrite ent_eye, ent_ofM3 by auto.
  destruct i as [|[|[|]]], j as [|[|[|]]]; try lia; reflexivity.
Qed.
Lemma pd_conj A P B : nr A = nr P -> nc A = nr P -> A *M B = meye (nr P) -> nr B = nr P -> nc B = nr P -> pd P -> pd (A *M P *M mT A).
Proof.
  intros H1 H2 HB H3 H4 HP. pose proof (pd_sq _ HP). split.
  - apply sym_conj; [auto|apply HP].
  - intros x X1 X2 Hx. mdim. rewrite quad_conj by mdim. apply HP; [mdim; congruence|mdim|]. 
    intros E. apply Hx. rewrite H1.
    assert (mT B *M (mT A *M x) = x) as <-; [|rewrite E].
    + rewrite mmult_assoc, <- mT_mult, HB, mT_eye by mdim. apply mmult_eye_l; mdim; congruence.
    + rewrite mmult_O_r. f_equal; mdim.
Qed.
Lemma pd_rot A C : SO3 A -> pd (ofM3 C) -> pd (ofM3 (A *m C *m mtr A)).
Proof.
  intros HA HC. rewrite !ofM3_mult, ofM3_tr. apply (pd_conj _ _ (ofM3 (mtr A))); auto.
  rewrite <- ofM3_mult, SO3_r by auto. apply ofM3_id.
Qed.
Lemma vel_measurement K s y cov : measurement K 3 (vel_innovation s y) (vel_H K) (vel_N s cov).
Proof. repeat split. Qed.
Lemma vel_update_total K c m s : wfp K s -> psd (sP s) -> vel_noise_ok c ->
  exists s', vel_update c m s = Ok s' /\ wfp K s' /\ psd (sP s') /\ same_meta (set_time s (vm_t m)) s'.
Proof.
  intros W HP HN. rewrite (vel_update_eq K) by auto. destruct W as [W HK Hty HQ1 HQ2].
  assert (wf K (set_time s (vm_t m))) as W' by (destruct W; split; auto).
  destruct (thm_right_psd K 3 _ _ _ (set_time s (vm_t m)) (vc_err c) W' (vel_measurement K s (vc_R c *v (vc_scale c *s vm_v m)) (vc_cov c))) as (s' & E & P').
  { exact HP. } { apply pd_rot; [apply W|exact HN]. }
  exists s'. split; [exact E|]. 
  destruct (thm_right_group _ _ _ _ _ _ _ _ W' (vel_measurement K _ _ _) E) as [W2 M].
  split; [|split; [exact P'|exact M]]. destruct M as (M1 & M2 & M3 & M4 & M5 & M6 & M7 & M8). split; auto; try (rewrite M5; exact HQ1); try (rewrite M5; exact HQ2); rewrite M1; exact Hty.
Qed.
Lemma thm_vel_total K c s sched : wfp K s -> psd (sP s) -> vel_noise_ok c -> (exists tp, stprop s = Some tp) ->
  exists b c' s', vel_Correct c s sched = Ok (b, c', s') /\ wfp K s' /\ psd (sP s').
Proof.
  intros W HP HN (tp & Et). unfold vel_Correct. destruct (_ ++ _) as [|m q]; [eauto 10|].
  unfold get_propagate_time. rewrite Et. cbn [of_opt bind]. destruct (not_past _ _); [eauto 10|].
  match goal with |- context [match ?x with _ => _ end] => destruct x as [[r q1] bs] end. destruct r as [m1|]; [|eauto 10].
  destruct (vel_update_total K c m1 s W HP HN) as (s' & E & W' & P' & _). rewrite E. cbn [bind]. eauto 10.
Qed.

(** ** C22 *)
Lemma vel_update_time K c m s s' : wfp K s -> vel_update c m s = Ok s' -> wfp K s' /\ same_meta (set_time s (vm_t m)) s'.
Proof.
  intros W E. rewrite (vel_update_eq K) in E by auto. destruct W as [W HK Hty HQ1 HQ2].
  assert (wf K (set_time s (vm_t m))) as W' by (destruct W; split; auto).
  destruct (thm_right_group _ _ _ _ _ _ _ _ W' (vel_measurement K _ _ _) E) as [W2 M].
  split; [|exact M]. destruct M as (M1 & M2 & M3 & M4 & M5 & M6 & M7 & M8). split; auto; try (rewrite M5; exact HQ1); try (rewrite M5; exact HQ2); rewrite M1; exact Hty.
Qed.
Lemma thm_vel_not_future K c s sched m q tp c' s' : wfp K s -> vc_queue c ++ hd_batch sched = m :: q -> stprop s = Some tp ->
  ~ stale (vc_thr c) tp (vm_t m) -> vel_Correct c s sched = Ok (true, c', s') ->
  vm_t m < tp /\ st s' = Some (vm_t m) /\ vel_applied K c m s s'.
Proof.
  intros W E Et Hs. unfold vel_Correct. rewrite E. unfold get_propagate_time. rewrite Et. cbn [of_opt bind].
  unfold not_past. destruct (Rle_dec _ _) as [|Hp]; [discriminate|].
  apply too_old_false in Hs. rewrite Hs. intros E1. apply bind_inv in E1. destruct E1 as (s1 & E2 & E3). injection E3 as <- <-.
  split; [lra|]. split.
  - destruct (vel_update_time K c m s s1 W E2) as [_ M]. apply M.
  - red. rewrite <- (vel_update_eq K) by auto. exact E2.
Qed.
Lemma ctor_vel_noise q e g : (forall x, g_std g = Some x -> x <> 0) -> vel_noise_ok (VelocityCorrection q e g).
Proof.
  intros H. unfold vel_noise_ok, VelocityCorrection. cbn [vc_cov]. set (x := dflt (g_std g) (1 / 10)).
  assert (x <> 0) as Hx. { unfold x. destruct (g_std g); cbn; [auto|lra]. }
  replace (ofM3 ((x * x) *ms mid)) with ((x * x) *S meye 3).
  - apply pd_scl; [|apply pd_eye]. nra.
  - apply mat_ext; try reflexivity. intros i j Hi Hj. change (i < 3)%nat in Hi. change (j < 3)%nat in Hj.
    destruct i as [|[|[|i]]], j as [|[|[|j]]]; try lia; rewrite ent_scl, ent_eye, ent_ofM3 by lia; cbn; ring.
Qed.
Definition no_vcfg := mkVCfg None None None None.
Definition ex_vc (q : list vmeas) : vel_corr := VelocityCorrection q RightInvariant no_vcfg.
Lemma thm_vel_future_refuted : exists K c s sched tp c' s' m,
  wfp K s /\ psd (sP s) /\ stprop s = Some tp /\ vel_Correct c s sched = Ok (true, c', s') /\
  vel_applied K c m s s' /\ st s' = Some (vm_t m) /\ tp < vm_t m.
Proof.
  set (s := ex_state 2 (meye 15) 1). assert (wfp 2 s) as W by (apply ex_wfp; auto).
  set (m0 := mkVM 0 vzero). set (m := mkVM 5 (mkV 1 0 0)). set (c := ex_vc [m0; m]).
  destruct (vel_update_total 2 c m s W (psd_eye 15)) as (s' & E & W' & P' & M); [apply ctor_vel_noise; discriminate|].
  exists 2%nat, c, s, [], 1, (vc_set_queue c []), s', m.
  split; [exact W|]. split; [apply (psd_eye 15)|]. split; [reflexivity|]. split.
  - unfold vel_Correct. cbn [vc_queue c ex_vc VelocityCorrection hd_batch app]. unfold get_propagate_time. cbn [stprop s ex_state of_opt bind].
    unfold not_past. cbn [vm_t m0]. destruct (Rle_dec 0 (0 - 1)); [lra|].
    cbn [vc_thr c ex_vc VelocityCorrection no_vcfg g_thr dflt].
    assert (too_old (3 / 10) 1 0 = true) as -> by (apply too_old_true; unfold stale; lra).
    cbn [tl_batch drain drain_q]. cbn [vm_t m]. assert (too_old (3 / 10) 1 5 = false) as -> by (apply too_old_false; unfold stale; lra).
    rewrite E. reflexivity.
  - split; [red; rewrite <- (vel_update_eq 2) by auto; exact E|]. split; [apply M|]. cbn. lra.
Qed.

(** ** the innovation only depends on the invariant error *)
Lemma jr_of w : exists Jr, RightJacobian_SO3 w = Ok Jr /\ Jr = mtr (jl w).
Proof. destruct (LieThms.thm_jacobians w) as (A & J & Jr & H1 & H2 & H3 & H4 & _). exists Jr. split; auto. rewrite H4. f_equal.
  unfold LeftJacobian_SO3 in H2. rewrite Gamma1 in H2. congruence. Qed.
Lemma rot_mult K X Y : SEK K X -> SEK K Y -> rot (X *M Y) = rot X *m rot Y.
Proof. intros HX HY. rewrite (SEK_form K X HX), (SEK_form K Y HY), aff_mult, !rot_aff. reflexivity. Qed.
Lemma col_mult K X Y k : SEK K X -> SEK K Y -> (k < K)%nat -> col (X *M Y) k = rot X *v col Y k +v col X k.
Proof.
  intros HX HY Hk. rewrite (SEK_form K X HX), (SEK_form K Y HY), aff_mult. repeat (rewrite col_aff by auto). rewrite !rot_aff.
  rewrite vscal_1. reflexivity.
Qed.
Lemma expSEK_col K xi k : nr xi = (3 + 3 * K)%nat -> (k < K)%nat -> col (expSEK xi) k = jl (getV3 xi 0 0) *v getV3 xi (3 + 3 * k) 0.
Proof. intros H Hk. rewrite (expSEK_K K), col_aff by auto. reflexivity. Qed.
Lemma expSEK_rot K xi : nr xi = (3 + 3 * K)%nat -> rot (expSEK xi) = expSO3 (getV3 xi 0 0).
Proof. intros H. rewrite (expSEK_K K), rot_aff by auto. reflexivity. Qed.

(** the body-frame value of world vector a - b, seen from the estimate: E^T J (xa - xb) *)
Lemma thm_vel_innovation K s xi E Xt : wfp K s -> nr xi = (3 + 3 * K)%nat -> nc xi = 1%nat ->
  Exp_SEK3 xi = Ok E -> Xt = E *M sX s ->
  exists Jr, RightJacobian_SO3 (getV3 xi 0 0) = Ok Jr /\
    vel_innovation s (mtr (rot Xt) *v col Xt 0) = ofV3 (Jr *v getV3 xi 3 0).
Proof.
  intros W H1 H2 HE ->. destruct W as [[HX _ _ _ _] HK _ _ _].
  rewrite (Exp_SEK3_ok K) in HE by auto. injection HE as <-.
  destruct (jr_of (getV3 xi 0 0)) as (Jr & EJ & EJ'). exists Jr. split; [exact EJ|].
  pose proof (expSEK_SEK K xi H1) as HS. unfold vel_innovation. f_equal.
  rewrite (rot_mult K), (col_mult K) by (auto; lia). rewrite (expSEK_rot K), (expSEK_col K) by (auto; lia).
  rewrite EJ', <- expR_jlT, mtr_mul. change (3 + 3 * 0)%nat with 3%nat.
  pose proof (expSO3_SO3 (getV3 xi 0 0)) as HA. set (A := expSO3 _) in *. set (R := rot (sX s)) in *. assert (SO3 R) as HR by apply HX.
  rewrite !mv_mul, SO3_rv by auto. rewrite mv_add_r, SO3_l by auto. ring3.
Qed.
