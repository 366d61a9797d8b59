(** Proofs: C30, clear. *)
From Coq Require Import Reals ZArith List Bool Arith Lia Lra.
From Verif Require Import Res Vec3 Mat MatInv Psd Spec LieGroup LieSO3 LieSEK RobotState StateProofs Inekf SpecFilter InekfThms Blk Imu Propagation SpecProp
  PropagationThms ImuRest ImuThms ImuNeg Queue VelCorr LegCorr SpecCorr VelThms PsdBlk LegThms LegUpd LegHist Estimator SpecEst EstInv EstSafe EstPub EstHist EstTime
  ConvFilter SpecConv SpecClear ClearShift ClearEst ClearSlip.
Import ListNotations.
Local Open Scope R_scope.

Lemma imus_app a b : imus (a ++ b) = imus a ++ imus b.
Proof. induction a as [|o a IH]; [reflexivity|]. cbn [app]. rewrite !imus_cons, IH, app_assoc. reflexivity. Qed.
Lemma run_prefix : forall pre post e a, est_ok (imus (pre ++ post)) e -> protocol e (pre ++ post) -> est_run e pre = Ok a -> est_ok (imus post) a /\ protocol a post.
Proof.
  induction pre as [|o pre IH]; intros post e a HE HP ER; cbn [app est_run foldM] in *; [injection ER as <-; auto|].
  apply bind_inv in ER. destruct ER as (e1 & E1 & ER). rewrite imus_cons in HE. destruct HP as [HA HP].
  destruct (step_safe _ _ _ HE HA) as [(e' & E & K)|[E _]]; rewrite E1 in E; [|discriminate]. injection E as <-. eapply IH; eauto.
Qed.
Definition fresh (f : config) (ip : imu_prop) : est := e_set_prop (build f) (no_prev (IP_clear ip)).

Lemma clear_fix c c' g : c_fixed c = c_fixed c' -> (forall x, c' = CLeg x -> lc_map x = fun _ => None) -> queued c' = [] -> corr_clear c = shc g c'.
Proof.
  destruct c as [c|c], c' as [c'|c']; cbn [c_fixed]; try discriminate; intros H HM HQ.
  - destruct c, c'; cbn in *. apply map_eq_nil in HQ. injection H. intros; subst. reflexivity.
  - specialize (HM _ eq_refl). destruct c, c'; cbn in *. apply map_eq_nil in HQ. injection H. intros; subst. reflexivity.
Qed.
Lemma fresh_rel f pre post a ip : legal f (pre ++ OClear :: post) -> est_run (build f) pre = Ok a -> e_prop a = Some ip ->
  est_ok (imus post) (fresh f ip) /\ exists a1, Clear a = Ok a1 /\ est_ok (imus post) a1 /\ protocol a1 post /\ rel (e_heap a) (fresh f ip) a1.
Proof.
  intros (HC & HS & HP) ER Hip. pose proof (build_ok f _ HC HS) as HB. destruct (run_prefix pre (OClear :: post) _ _ HB HP ER) as [HA HPa].
  rewrite imus_cons in HA. cbn [op_imu app] in HA. destruct HPa as [_ HPa].
  assert (imu_stream (imus post)) as HSp.
  { destruct (ok_prop _ _ HA) as (i & E & _ & _ & S & _). clear -S. revert S. induction (ip_queue i) as [|m q IH]; [auto|]. cbn [app]. intros S. apply IH. destruct S as [S1 S2]. split; [inversion S1; auto|].
    cbn [map sorted] in S2. destruct (map i_t (q ++ imus post)); [exact I|]. cbn in *. tauto. }
  split.
  - pose proof (build_ok f _ HC HSp) as HF. destruct (ok_prop _ _ HA) as (i & E & N & C & _). rewrite Hip in E. injection E as <-.
    destruct HF as [K1 K2 K3 K4 K5 K6 K7 K8]. assert (e_enabled (build f) = false) as EB by (rewrite build_eq; reflexivity). unfold fresh. constructor; est_cbn; auto.
    eexists. split; [reflexivity|]. split; [exact N|]. split; [exact C|]. split; [exact HSp|]. intros Q. cbn in Q. congruence.
  - destruct (step_safe _ _ OClear HA I) as [(a1 & E1 & K1)|[_ (l & L & _)]]; [|discriminate]. exists a1. split; [exact E1|]. split; [exact K1|]. split; [apply HPa; exact E1|].
    cbn [est_step] in E1. unfold Clear in E1. rewrite Hip in E1. cbn [of_opt bind] in E1.
    destruct (run_fixed _ _ _ ER) as (F1 & F2 & F3). rewrite Hip in F3.
    assert (rel (e_heap a) (fresh f ip) (e_set a (RS_clear (e_state a)) (e_heap a) (Some (IP_clear ip)) (map corr_clear (e_corrs a)) false [] [])) as HR.
    { constructor; est_cbn.
      - unfold fresh. rewrite build_eq. est_cbn. cbn. symmetry. apply app_nil_r.
      - unfold fresh. est_cbn. rewrite build_eq in F2 |- *. est_cbn. revert F2. generalize (e_corrs a). generalize (e_heap a). generalize (f_corrs f). clear. intros gs g.
        induction gs as [|x gs IH]; intros [|c cs]; cbn [map]; try discriminate; [reflexivity|]. intros H.
        assert (c_fixed c = c_fixed (mk_corr (f_err f) x) /\ map c_fixed cs = map c_fixed (map (mk_corr (f_err f)) gs)) as [H1 H2] by (injection H; auto).
        rewrite (IH _ H2). f_equal. apply clear_fix; [exact H1| |destruct x; reflexivity]. destruct x; intros y [=]; subst; reflexivity.
      - unfold fresh. rewrite build_eq. reflexivity.
      - unfold fresh. rewrite build_eq. reflexivity.
      - unfold e_fixed in F1. unfold fresh. est_cbn. injection F1. auto.
      - unfold fresh. rewrite build_eq. discriminate.
      - intros _. split.
        + cbn [RS_clear sslip]. rewrite (run_slip _ _ _ ER). unfold fresh. rewrite build_eq. reflexivity.
        + do 2 eexists. split; [reflexivity|]. split; [reflexivity|]. reflexivity. }
    cbn [e_set e_logger e_names e_count] in E1. destruct (e_logger a); [destruct (e_names a)|]; injection E1 as <-; destruct HR; constructor; auto.
Qed.
Lemma fresh_same f pre1 pre2 a b ia ib : est_run (build f) pre1 = Ok a -> est_run (build f) pre2 = Ok b -> e_prop a = Some ia -> e_prop b = Some ib ->
  ip_bg0 ia = ip_bg0 ib -> ip_ba0 ia = ip_ba0 ib -> ip_vec ia = ip_vec ib -> ip_bias_init ia = ip_bias_init ib -> fresh f ia = fresh f ib.
Proof.
  intros E1 E2 A B H1 H2 H3 H4. destruct (run_fixed _ _ _ E1) as (_ & _ & F1). destruct (run_fixed _ _ _ E2) as (_ & _ & F2). rewrite A in F1. rewrite B in F2. rewrite <- F2 in F1.
  assert (ip_fixed ia = ip_fixed ib) as F by (cbn [option_map] in F1; congruence). unfold fresh. f_equal. destruct ia, ib; cbn in *. unfold ip_fixed in F. cbn in F. injection F. intros; subst. reflexivity.
Qed.

Lemma numbers_sh g1 g2 s : same_numbers (sh g1 s) (sh g2 s).
Proof. reflexivity. Qed.
Lemma ids_sh g (h : heap) s : col_ids (g ++ h) (sh g s) = col_ids h s.
Proof.
  unfold col_ids, sh. cbn [scmap set_cmap]. rewrite map_map. apply map_ext. intros [p|]; [|reflexivity]. cbn. f_equal. rewrite nth_error_app2 by lia. f_equal. lia.
Qed.
Lemma seen_sh g1 g2 e0 a b s : rel g1 e0 a -> rel g2 e0 b -> same_seen a b (sh g1 s) (sh g2 s).
Proof. intros R1 R2. split; [reflexivity|]. rewrite (r_heap _ _ _ R1), (r_heap _ _ _ R2), !ids_sh. reflexivity. Qed.
Lemma queued_sh g cs : map queued (map (shc g) cs) = map queued cs.
Proof. rewrite map_map. apply map_ext. intros [c|c]; reflexivity. Qed.
Lemma Forall2_maps {A B} (P : B -> B -> Prop) (f g : A -> B) l : (forall x, P (f x) (g x)) -> Forall2 P (map f l) (map g l).
Proof. intros H. induction l; cbn; constructor; auto. Qed.

(** C30 *)
Lemma thm_clear f pre1 pre2 post a b : legal f (pre1 ++ OClear :: post) -> legal f (pre2 ++ OClear :: post) ->
  est_run (build f) pre1 = Ok a -> est_run (build f) pre2 = Ok b -> same_calibration a b ->
  exists a1 b1, Clear a = Ok a1 /\ Clear b = Ok b1 /\ Forall2 same_numbers (published any_op a1 post) (published any_op b1 post) /\
  match est_run a1 post, est_run b1 post with Ok x, Ok y => same_visible x y | Fail u, Fail v => u = v | _, _ => False end.
Proof.
  intros L1 L2 E1 E2 (ia & ib & A & B & H1 & H2 & H3 & H4).
  destruct (fresh_rel _ _ _ _ _ L1 E1 A) as (K0 & a1 & C1 & KA & PA & RA). destruct (fresh_rel _ _ _ _ _ L2 E2 B) as (_ & b1 & C2 & KB & PB & RB).
  rewrite <- (fresh_same _ _ _ _ _ _ _ E1 E2 A B H1 H2 H3 H4) in RB. exists a1, b1. split; [exact C1|]. split; [exact C2|].
  destruct (run_rel _ _ _ _ K0 KA RA PA) as [SA QA]. destruct (run_rel _ _ _ _ K0 KB RB PB) as [SB QB]. rewrite QA, QB. split; [apply Forall2_maps; apply numbers_sh|].
  assert (est_ok (imus post) (fresh f ia) -> True) by auto.
  destruct (est_run (fresh f ia) post) as [c|er] eqn:EC; cbn [sim] in *; destruct (est_run a1 post) as [x|]; try contradiction; destruct (est_run b1 post) as [y|]; try contradiction; [|congruence].
  pose proof SA as [Rh Rc Re Ro Rv Ron Roff]. pose proof SB as [Rh' Rc' Re' Ro' Rv' Ron' Roff']. constructor.
  - congruence.
  - rewrite Re. intros Q. destruct (Ron Q) as [-> _]. destruct (Ron' Q) as [-> _]. eapply seen_sh; eauto.
  - rewrite Ro, Ro'. apply Forall2_maps. intros s. eapply seen_sh; eauto.
  - unfold imu_queue. destruct (e_enabled c) eqn:Q.
    + destruct (Ron eq_refl) as [_ ->]. destruct (Ron' eq_refl) as [_ ->]. reflexivity.
    + destruct (Roff eq_refl) as (_ & i0 & i1 & X1 & X2 & X3). destruct (Roff' eq_refl) as (_ & j0 & j1 & Y1 & Y2 & Y3). rewrite X2, Y2.
      assert (i0 = j0) as -> by congruence. change (ip_queue (no_prev i1) = ip_queue (no_prev j1)). congruence.
  - rewrite Rc, Rc', !queued_sh. reflexivity.
Qed.

(** once finished, the calibration stays *)
Definition cal_of (ip : imu_prop) := (ip_bg0 ip, ip_ba0 ip, ip_vec ip, ip_bias_init ip).
Lemma step_cal fut e o e' ip : est_ok (op_imu o ++ fut) e -> allowed e o -> est_step e o = Ok e' -> e_prop e = Some ip -> ip_bias_init ip = true -> exists ip', e_prop e' = Some ip' /\ cal_of ip' = cal_of ip.
Proof.
  intros HE HA E Hip HB. destruct o; cbn [est_step] in E.
  - rewrite Hip in E. cbn [of_opt bind] in E. injection E as <-. est_cbn. eexists. split; [reflexivity|]. reflexivity.
  - injection E as <-. eauto.
  - injection E as <-. eauto.
  - destruct HA as [_ HA]. unfold BiasInitialized in HA. rewrite Hip in HA. cbn in HA. congruence.
  - unfold InitState in E. rewrite Hip in E. cbn [of_opt bind] in E. apply bind_inv in E. destruct E as ([[b ip'] s] & E1 & E).
    assert (cal_of ip' = cal_of ip) as HC.
    { unfold set_initial_state in E1. destruct (ip_queue ip); [injection E1 as <- <- <-; reflexivity|]. cbv zeta in E1. inv_bind E1. injection E1 as <- <- <-. reflexivity. }
    destruct b; cbn [negb] in E; [|injection E as <-; est_cbn; eauto]. apply bind_inv in E. destruct E as ([cs s1] & _ & E). inv_bind E. injection E as <-. est_cbn. eauto.
  - unfold RunOnce in E. rewrite Hip in E. cbn [of_opt bind] in E. apply bind_inv in E. destruct E as ([[b ip'] s] & E1 & E).
    assert (cal_of ip' = cal_of ip) as HC.
    { unfold Propagate in E1. destruct (ip_queue ip); [injection E1 as <- <- <-; reflexivity|]. inv_bind E1. injection E1 as <- <- <-. reflexivity. }
    apply bind_inv in E. destruct E as ([[[b2 cs] h] s1] & _ & E). destruct (b || b2); inv_bind E; injection E as <-; est_cbn; eauto.
  - unfold Clear in E. rewrite Hip in E. cbn [of_opt bind] in E. cbn [e_set e_logger e_names e_count] in E. destruct (e_logger e); [destruct (e_names e)|]; injection E as <-; cbn; eexists; split; reflexivity.
  - injection E as <-. eauto.
  - injection E as <-. unfold LogPop. destruct (e_pending e), (e_logq e); eauto.
  - unfold LogWrite in E. destruct (e_pending e); [|injection E as <-; eauto]. apply bind_inv in E. destruct E as (t & _ & E). destruct (_ && _); [|injection E as <-; eauto].
    inv_bind E. injection E as <-. eauto.
Qed.
Lemma run_cal : forall os e e' ip, est_ok (imus os) e -> protocol e os -> est_run e os = Ok e' -> e_prop e = Some ip -> ip_bias_init ip = true -> exists ip', e_prop e' = Some ip' /\ cal_of ip' = cal_of ip.
Proof.
  induction os as [|o os IH]; intros e e' ip HE HP ER Hip HB; cbn [est_run foldM] in ER; [injection ER as <-; eauto|].
  apply bind_inv in ER. destruct ER as (e1 & E1 & ER). rewrite imus_cons in HE. destruct HP as [HA HP].
  destruct (step_safe _ _ _ HE HA) as [(e2 & E & K)|[E _]]; rewrite E1 in E; [|discriminate]. injection E as <-.
  destruct (step_cal _ _ _ _ _ HE HA E1 Hip HB) as (ip1 & P1 & C1). assert (ip_bias_init ip1 = true) as HB1 by (unfold cal_of in C1; congruence).
  destruct (IH _ _ _ K (HP _ E1) ER P1 HB1) as (ip2 & P2 & C2). exists ip2. split; [exact P2|congruence].
Qed.
Lemma thm_clear_cal f cal rest post c a : legal f (cal ++ rest ++ OClear :: post) -> legal f (cal ++ OClear :: post) ->
  est_run (build f) cal = Ok c -> BiasInitialized c = Ok true -> est_run c rest = Ok a ->
  exists a1 c1, Clear a = Ok a1 /\ Clear c = Ok c1 /\ Forall2 same_numbers (published any_op a1 post) (published any_op c1 post) /\
  match est_run a1 post, est_run c1 post with Ok x, Ok y => same_visible x y | Fail u, Fail v => u = v | _, _ => False end.
Proof.
  intros L1 L2 E1 HB E2. pose proof L1 as (HC & HS & HP). destruct (run_prefix cal (rest ++ OClear :: post) _ _ (build_ok f _ HC HS) HP E1) as [KC PC].
  unfold BiasInitialized in HB. destruct (e_prop c) as [ic|] eqn:Hc; [|discriminate]. cbn in HB. assert (ip_bias_init ic = true) as HB' by (injection HB; auto).
  assert (protocol c rest /\ est_ok (imus rest) c) as [PR KR].
  { split.
    - clear -PC. revert c PC. induction rest as [|o os IH]; intros c P; cbn [app protocol] in *; [exact I|]. destruct P as [P1 P2]. split; [exact P1|]. intros e' E. apply IH. auto.
    - rewrite imus_app in KC. destruct KC as [(i & K1 & K1a & K1b & K1c & K1d) K2 K3 K4 K5 K6 K7 K8]. constructor; auto. exists i. split; [exact K1|]. split; [exact K1a|]. split; [exact K1b|].
      assert (forall l l', imu_stream (l ++ l') -> imu_stream l) as HSt.
      { clear. intros l l' [S1 S2]. split; [apply Forall_app in S1; tauto|]. destruct l as [|m l]; [exact I|]. cbn [app map sorted] in *. revert S2. generalize (i_t m). clear S1.
        induction l as [|x l IH]; intros t; cbn [app map nondec]; [auto|]. intros [Q1 Q2]. split; [exact Q1|]. apply IH. exact Q2. }
      split; [rewrite app_assoc in K1c; eapply HSt; exact K1c|]. intros Q. destruct (K1d Q) as (tp & t & m & X1 & X2 & X3 & X4). exists tp, t, m. do 3 (split; [assumption|]).
      clear -X4. rewrite app_assoc, app_comm_cons, map_app in X4. revert X4. generalize (map i_t (m :: ip_queue i ++ imus rest)). intros l. revert tp. generalize (map i_t (imus (OClear :: post))).
      intros l'. induction l as [|x l IH]; intros t; cbn [app nondec]; [auto|]. intros [Q1 Q2]. split; [exact Q1|]. apply IH. exact Q2. }
  destruct (run_cal _ _ _ _ KR PR E2 Hc HB') as (ia & Ha & Hcal).
  apply (thm_clear f (cal ++ rest) cal post a c); auto.
  - rewrite <- app_assoc. exact L1.
  - unfold est_run in *. rewrite foldM_app, E1. exact E2.
  - exists ia, ic. unfold cal_of in Hcal. injection Hcal. intros. auto 10.
Qed.
