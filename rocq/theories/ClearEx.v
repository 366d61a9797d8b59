(** C30: what clear() does not forget. *)
From Coq Require Import Reals ZArith List Bool Arith Lia Lra.
From Verif Require Import Res Vec3 Mat MatInv Psd Spec LieGroup LieSO3 LieSEK RobotState StateProofs Inekf SpecFilter InekfThms Blk Imu Propagation SpecProp
  PropagationThms ImuRest ImuThms ImuNeg Queue VelCorr LegCorr SpecCorr VelThms PsdBlk LegThms LegUpd LegHist Estimator SpecEst EstInv EstSafe EstPub EstHist EstTime EstEx
  ConvFilter SpecConv SpecClear ClearShift ClearEst ClearSlip ClearThms.
Import ListNotations.
Local Open Scope R_scope.

Lemma protocol_app : forall a b e, protocol e a -> (forall e', est_run e a = Ok e' -> protocol e' b) -> protocol e (a ++ b).
Proof.
  induction a as [|o a IH]; intros b e HA HB; cbn [app]; [apply HB; reflexivity|]. destruct HA as [H1 H2]. split; [exact H1|].
  intros e' E. apply IH; [apply H2; exact E|]. intros e2 E2. apply HB. cbn [est_run foldM]. rewrite E. exact E2.
Qed.
Definition bootOps (m1 m2 : imu) : list op := [OImu m1; OInitState []; OImu m2; ORunOnce []; OLogPop; OLogWrite].
Lemma run_cons e o os : est_run e (o :: os) = bind (est_step e o) (fun e => est_run e os). Proof. reflexivity. Qed.

Lemma boot e ip m1 m2 fut : est_ok (m1 :: m2 :: fut) e -> e_enabled e = false -> e_corrs e = [] -> e_prop e = Some ip -> ip_bias_init ip = true -> ip_queue ip = [] ->
  e_pending e = None -> e_logq e = [] -> e_logger e = true -> e_out e = [] ->
  exists e' s1 s2 ls, protocol e (bootOps m1 m2) /\ est_run e (bootOps m1 m2) = Ok e' /\ est_ok fut e' /\ e_corrs e' = [] /\
  published any_op e (bootOps m1 m2) = [s1; s2] /\ gbias s1 = ip_bg0 ip /\ e_pending e' = None /\
  (exists ip', e_prop e' = Some ip' /\ ip_bias_init ip' = true) /\ e_logger e' = true /\ e_rate e' = e_rate e /\
  (log_due (e_rate e) (i_t m1 - e_lastpub e) = true -> e_lastpub e' = i_t m1 /\ length ls = 1%nat) /\
  (log_due (e_rate e) (i_t m1 - e_lastpub e) = false -> e_lastpub e' = e_lastpub e /\ ls = []) /\
  e_lines e' = e_lines e ++ ls.
Proof.
  intros H0 He Hc Hip Hb Hq Hpe Hlq Hlo Hou.
  set (e1 := e_set_prop e (set_queue ip (ip_queue ip ++ [m1]))). assert (est_step e (OImu m1) = Ok e1) as S1 by (cbn [est_step]; rewrite Hip; reflexivity).
  destruct (step_safe (m2 :: fut) e (OImu m1) H0 I) as [(x & X & H1)|[_ (l & L & _)]]; [|discriminate]. rewrite S1 in X. injection X as <-.
  assert (allowed e1 (OInitState [])) as A1 by (split; [exact He|]; unfold BiasInitialized; cbn; rewrite Hb; reflexivity).
  destruct (step_safe (m2 :: fut) e1 (OInitState []) H1 A1) as [(e2 & S2 & H2)|[_ (l & L & NF)]]; [|injection L as <-; exfalso; apply NF; cbn; rewrite Hc; exact I].
  assert (e_prop e1 = Some (set_queue ip [m1])) as P1 by (unfold e1; rewrite Hq; reflexivity).
  pose proof S2 as S2'. cbn [est_step] in S2'. pose proof (InitState_spec _ e1 [] _ e2 H1 He P1 S2') as SP. cbn [ip_queue set_queue] in SP.
  destruct SP as (us & T & A2 & P2 & O2 & L2 & N2 & _ & _ & _ & G2 & _ & _ & _ & _). change (e_corrs e1) with (e_corrs e) in T. rewrite Hc in T.
  assert (e_corrs e2 = []) as C2. { destruct us, (e_corrs e2); cbn in T; try contradiction; reflexivity. }
  assert (e_pending e2 = None /\ e_lastpub e2 = e_lastpub e) as [PE2 LP2].
  { unfold InitState in S2'. rewrite P1 in S2'. cbn [of_opt bind] in S2'. apply bind_inv in S2'. destruct S2' as ([[b i'] s] & _ & S2'). destruct b; cbn [negb] in S2'.
    - apply bind_inv in S2'. destruct S2' as ([cs s'] & _ & S2'). inv_bind S2'. injection S2' as <-. est_cbn. auto.
    - injection S2' as <-. est_cbn. auto. }
  destruct (step_fixed _ _ _ S2) as (F2 & _ & _). change (e_fixed e1) with (e_fixed e) in F2. assert (e_logger e2 = true /\ e_rate e2 = e_rate e) as [LO2 RA2] by (unfold e_fixed in F2; split; congruence).
  set (e3 := e_set_prop e2 (set_queue (set_prev (set_queue (set_queue ip [m1]) []) m1) [m2])). assert (est_step e2 (OImu m2) = Ok e3) as S3 by (cbn [est_step]; rewrite P2; reflexivity).
  destruct (step_safe fut e2 (OImu m2) H2 I) as [(x & X & H3)|[_ (l & L & _)]]; [|discriminate]. rewrite S3 in X. injection X as <-.
  destruct (RunOnce_spec fut e3 [] H3 A2) as (e4 & fs & b & tp & B1 & B2 & B3 & B4 & B5 & B6 & B7 & B8 & B9 & B10 & B11 & B12 & B13).
  change (imu_queue e3) with [m2] in *. assert (tp = i_t m1) as ->. { destruct B12 as (i & m & D1 & D2 & ->); [discriminate|]. cbn in D1. injection D1 as <-. cbn in D2. injection D2 as <-. reflexivity. }
  assert (b = true) as -> by (apply B5; left; discriminate). cbn [pub_of] in *.
  change (e_corrs e3) with (e_corrs e2) in B3. rewrite C2 in B3. assert (fs = [] /\ e_corrs e4 = []) as [-> C4] by (destruct fs, (e_corrs e4); cbn in B3; try contradiction; auto). cbn [last_used] in B13.
  change (e_logger e3) with (e_logger e2) in B8. rewrite LO2 in B8. change (e_logq e3) with (e_logq e2) in B8. rewrite L2 in B8. change (e_logq e1) with (e_logq e) in B8. rewrite Hlq in B8. cbn [app] in B8.
  assert (e_pending e4 = None /\ e_lastpub e4 = e_lastpub e /\ exists ip', e_prop e4 = Some ip' /\ ip_bias_init ip' = true) as (PE4 & LP4 & IP4).
  { pose proof B1 as B. unfold RunOnce in B. cbn [e_prop e3 e_set_prop e_set of_opt bind] in B. apply bind_inv in B. destruct B as ([[b i'] s] & Q & B).
    assert (ip_bias_init i' = true) as HI.
    { unfold Propagate in Q. cbn [ip_queue set_queue] in Q. inv_bind Q. injection Q as <- <- <-. exact Hb. }
    apply bind_inv in B. destruct B as ([[[b2 cs] h] s'] & _ & B). destruct (b || b2); inv_bind B; injection B as <-; est_cbn; eauto. }
  destruct (step_fixed e3 (ORunOnce []) e4 B1) as (F4 & _ & _). change (e_fixed e3) with (e_fixed e2) in F4. assert (e_logger e4 = true /\ e_rate e4 = e_rate e) as [LO4 RA4] by (unfold e_fixed in F4; split; congruence).
  assert (est_ok fut e4) as H4. { destruct (step_safe fut e3 (ORunOnce []) H3 A2) as [(x & X1 & H6)|[X1 _]]; cbn [est_step] in X1; rewrite B1 in X1; [|discriminate]. injection X1 as <-. exact H6. }
  set (e5 := e_log e4 [] (Some (e_state e4)) (e_lastpub e4) (e_lines e4)).
  assert (est_step e4 OLogPop = Ok e5) as S5 by (cbn [est_step]; unfold LogPop; rewrite PE4, B8; reflexivity).
  destruct (step_safe fut e4 OLogPop H4 I) as [(x & X & H5)|[_ (l & L & _)]]; [|discriminate]. rewrite S5 in X. injection X as <-.
  destruct (step_safe fut e5 OLogWrite H5 I) as [(e6 & S6 & H6)|[_ (l & L & _)]]; [|discriminate].
  pose proof S6 as W. cbn [est_step] in W. unfold LogWrite in W. cbn [e5 e_log e_pending e_logger e_rate e_lastpub e_logq e_lines e_files] in W. unfold get_time in W. rewrite B13 in W. cbn [of_opt bind] in W. rewrite LO4, RA4, LP4 in W. cbn [andb] in W.
  assert (e_lines e4 = e_lines e) as LN4 by (rewrite B10; change (e_lines e3) with (e_lines e2); rewrite N2; reflexivity).
  assert (exists ls, est_run e (bootOps m1 m2) = Ok e6 /\ e_corrs e6 = [] /\ e_pending e6 = None /\ e_prop e6 = e_prop e4 /\ e_logger e6 = true /\ e_rate e6 = e_rate e /\
    (log_due (e_rate e) (i_t m1 - e_lastpub e) = true -> e_lastpub e6 = i_t m1 /\ length ls = 1%nat) /\
    (log_due (e_rate e) (i_t m1 - e_lastpub e) = false -> e_lastpub e6 = e_lastpub e /\ ls = []) /\ e_lines e6 = e_lines e ++ ls /\ e_out e6 = e_out e4) as (ls & R1 & R2 & R3 & R4 & R5 & R6 & R7 & R8 & R9 & R10).
  { assert (est_run e (bootOps m1 m2) = Ok e6) as ER.
    { unfold bootOps. rewrite run_cons, S1. cbn [bind]. rewrite run_cons, S2. cbn [bind]. rewrite run_cons, S3. cbn [bind]. rewrite run_cons. cbn [est_step]. rewrite B1. cbn [bind]. rewrite run_cons, S5. cbn [bind]. rewrite run_cons, S6. reflexivity. }
    destruct (log_due (e_rate e) (i_t m1 - e_lastpub e)).
    - inv_bind W. injection W as <-. eexists [_]. split; [exact ER|]. est_cbn. rewrite LN4. do 6 (split; [auto; fail|]). split; [discriminate|]. auto.
    - injection W as <-. exists []. split; [exact ER|]. est_cbn. rewrite LN4, app_nil_r. do 5 (split; [auto; fail|]). split; [discriminate|]. auto. }
  exists e6, (e_state e2), (e_state e4), ls. split.
  { unfold bootOps. cbn [protocol]. split; [exact I|]. intros y1 Y1. rewrite S1 in Y1. injection Y1 as <-. split; [exact A1|]. intros y1 Y1. rewrite S2 in Y1. injection Y1 as <-.
    split; [exact I|]. intros y1 Y1. rewrite S3 in Y1. injection Y1 as <-. split; [exact A2|]. intros y1 Y1. split; [exact I|]. intros y2 Y2. split; [exact I|]. auto. }
  split; [exact R1|]. split; [exact H6|]. split; [exact R2|]. split.
  { assert (est_step e3 (ORunOnce []) = Ok e4) as S4 by exact B1. unfold bootOps. cbn [published]. rewrite S1, S2, S3, S4, S5, S6. cbn [any_op].
    change (e_out e5) with (e_out e4). rewrite R10. change (e_out e3) with (e_out e2). rewrite B7. change (e_out e3) with (e_out e2). rewrite O2. change (e_out e1) with (e_out e). rewrite Hou. reflexivity. }
  split; [rewrite G2; reflexivity|]. split; [exact R3|]. split; [rewrite R4; exact IP4|]. auto 10.
Qed.
Lemma clear_boot a ip m1 m2 fut : est_ok (m1 :: m2 :: fut) a -> e_corrs a = [] -> e_prop a = Some ip -> ip_bias_init ip = true -> e_pending a = None -> e_logger a = true ->
  exists a1 e' s1 s2 ls, Clear a = Ok a1 /\ protocol a1 (bootOps m1 m2) /\ est_run a1 (bootOps m1 m2) = Ok e' /\
  published any_op a1 (bootOps m1 m2) = [s1; s2] /\ gbias s1 = ip_bg0 ip /\
  (log_due (e_rate a) (i_t m1 - e_lastpub a) = true -> length ls = 1%nat) /\
  (log_due (e_rate a) (i_t m1 - e_lastpub a) = false -> ls = []) /\ e_lines e' = e_lines a ++ ls.
Proof.
  intros H Hc Hip Hb Hp Hl. destruct (step_safe (m1 :: m2 :: fut) a OClear H I) as [(a1 & E & K)|[_ (l & L & _)]]; [|discriminate]. cbn [est_step] in E.
  exists a1. pose proof E as E'. unfold Clear in E. rewrite Hip in E. cbn [of_opt bind] in E. cbn [e_set e_logger e_names e_count] in E. rewrite Hl in E. destruct (e_names a) as [pose vel] eqn:En.
  assert (e_enabled a1 = false /\ e_corrs a1 = [] /\ e_prop a1 = Some (IP_clear ip) /\ e_pending a1 = None /\ e_logq a1 = [] /\ e_logger a1 = true /\ e_out a1 = [] /\
    e_rate a1 = e_rate a /\ e_lastpub a1 = e_lastpub a /\ e_lines a1 = e_lines a) as (Q1 & Q2 & Q3 & Q4 & Q5 & Q6 & Q7 & Q8 & Q9 & Q10).
  { injection E as <-. cbn. rewrite Hc. auto 20. }
  clear E. destruct (boot a1 (IP_clear ip) m1 m2 fut K Q1 Q2 Q3 Hb eq_refl Q4 Q5 Q6 Q7) as (e' & s1 & s2 & ls & B1 & B2 & B3 & B4 & B5 & B6 & B7 & B8 & B9 & B10 & B11 & B12 & B13).
  rewrite Q8, Q9 in *. rewrite Q10 in B13. exists e', s1, s2, ls. split; [exact E'|]. do 4 (split; [assumption|]). split; [apply B11|]. split; [apply B12|]. exact B13.
Qed.

(** *** the log: the time of the last line survives *)
Definition clF : config := mkCfg RightInvariant exE exI [].
Definition clPost : list op := bootOps (exM 1) (exM 1).
Lemma clF_ok : config_ok clF. Proof. split; [discriminate|]. split; [constructor|cbn; lia]. Qed.
Lemma stream1 n : imu_stream (repeat (exM 1) n).
Proof.
  split; [apply Forall_forall; intros m H; apply repeat_spec in H; subst; unfold qnorm2; cbn; ring|].
  destruct n as [|n]; [exact I|]. cbn [repeat map sorted]. induction n as [|n IH]; cbn [repeat map nondec]; [exact I|]. split; [lra|exact IH].
Qed.
Definition clE1 : est := e_set_prop (build clF) exIp1.
Lemma clS1 : est_step (build clF) OInitBias = Ok clE1.
Proof. cbn [est_step]. unfold InitBias. rewrite build_eq. reflexivity. Qed.
Lemma clA1 : allowed (build clF) OInitBias.
Proof. split; rewrite build_eq; reflexivity. Qed.
Lemma clK1 n : est_ok (repeat (exM 1) n) clE1.
Proof. destruct (step_safe (repeat (exM 1) n) (build clF) OInitBias (build_ok clF _ clF_ok (stream1 n)) clA1) as [(x & X1 & X2)|[_ (l & L & _)]]; [|discriminate]. rewrite clS1 in X1. injection X1 as <-. exact X2. Qed.

Lemma thm_clear_log : exists f cal rest post c a a1 c1 x y, legal f (cal ++ rest ++ OClear :: post) /\ legal f (cal ++ OClear :: post) /\
  est_run (build f) cal = Ok c /\ BiasInitialized c = Ok true /\ est_run c rest = Ok a /\ same_calibration a c /\
  Clear a = Ok a1 /\ Clear c = Ok c1 /\ est_run a1 post = Ok x /\ est_run c1 post = Ok y /\
  e_lines x = e_lines a /\ e_lines y <> e_lines c.
Proof.
  destruct (boot clE1 exIp1 (exM 1) (exM 1) [exM 1; exM 1] (clK1 4)) as (a & s1 & s2 & ls & B1 & B2 & B3 & B4 & B5 & B6 & B7 & (ip & B8 & B8') & B9 & B10 & B11 & _ & B13); try reflexivity; try (unfold clE1; rewrite build_eq; reflexivity).
  assert (e_rate clE1 = 10 /\ e_lastpub clE1 = 0) as [RT LP] by (unfold clE1; rewrite build_eq; split; reflexivity). rewrite RT, LP in *.
  assert (log_due 10 (i_t (exM 1) - 0) = true) as DU. { unfold log_due. destruct (Req_EM_T 10 0); [lra|]. cbn [i_t exM]. destruct (Rle_dec (1 / 10) (1 - 0)); [reflexivity|lra]. }
  assert (log_due 10 (i_t (exM 1) - i_t (exM 1)) = false) as DU2. { unfold log_due. destruct (Req_EM_T 10 0); [reflexivity|]. destruct (Rle_dec (1 / 10) (i_t (exM 1) - i_t (exM 1))); [lra|reflexivity]. }
  destruct (B11 DU) as [LPA _].
  destruct (clear_boot a ip (exM 1) (exM 1) [] B3 B4 B8 B8' B7 B9) as (a1 & x & t1 & t2 & ls1 & C1 & C2 & C3 & _ & _ & _ & C4 & C5). rewrite B10, LPA in C4. specialize (C4 DU2).
  destruct (clear_boot clE1 exIp1 (exM 1) (exM 1) [] (clK1 2)) as (b1 & y & u1 & u2 & ls2 & D1 & D2 & D3 & _ & _ & D4 & _ & D5); try reflexivity; try (unfold clE1; rewrite build_eq; reflexivity).
  rewrite RT, LP in D4. specialize (D4 DU).
  exists clF, [OInitBias], clPost, clPost, clE1, a, a1, b1, x, y.
  assert (protocol clE1 (clPost ++ OClear :: clPost)) as PP.
  { apply protocol_app; [exact B1|]. intros e' E. change clPost with (bootOps (exM 1) (exM 1)) in E. rewrite B2 in E. injection E as <-. split; [exact I|]. intros e' E. cbn [est_step] in E. rewrite C1 in E. injection E as <-. exact C2. }
  split; [|split].
  - split; [exact clF_ok|]. split; [exact (stream1 4)|]. cbn [app]. split; [exact clA1|]. intros e' E. rewrite clS1 in E. injection E as <-. exact PP.
  - split; [exact clF_ok|]. split; [exact (stream1 2)|]. cbn [app]. split; [exact clA1|]. intros e' E. rewrite clS1 in E. injection E as <-. split; [exact I|]. intros e' E. cbn [est_step] in E. rewrite D1 in E. injection E as <-. exact D2.
  - split; [rewrite run_cons, clS1; reflexivity|]. split; [reflexivity|]. split; [exact B2|]. split.
    { destruct (run_cal clPost clE1 a exIp1) as (ip' & P' & Q'); auto. { exact (clK1 2). } exists ip', exIp1. unfold cal_of in Q'. split; [exact P'|]. split; [reflexivity|]. injection Q'. auto. }
    do 4 (split; [assumption|]). split; [rewrite C5, C4; apply app_nil_r|]. rewrite D5. intros Q. apply (f_equal (@length _)) in Q. rewrite app_length in Q. lia.
Qed.

(** *** the calibration survives *)
Definition caI : imu_cfg := mkICfg (Some true) (Some 1%Z) None None None None None None None None None None.
Definition caF : config := mkCfg RightInvariant exE caI [].
Definition caM (w : R) : imu := mkImu 1 (mkQ 1 0 0 0) (mkV w 0 0) (mkV 0 0 9).
Definition caPre (w : R) : list op := [OImu (caM w); OInitBias; OInitBias].
Definition caP0 : imu_prop := ImuPropagation [] RightInvariant caI.
Definition caP1 w := set_queue caP0 [caM w].
Definition caP2 w := set_prev (set_vec (set_queue caP0 []) [calib_sample caP0 (caM w)]) (caM w).
Definition caP3 w := set_bias (caP2 w) ((1 / 1) *s (vzero +v fst (calib_sample caP0 (caM w)))) ((1 / 1) *s (vzero +v snd (calib_sample caP0 (caM w)))).
Lemma caF_ok : config_ok caF. Proof. split; [intros _; cbn; lia|]. split; [constructor|cbn; lia]. Qed.
Lemma caP3_bg w : ip_bg0 (caP3 w) = mkV w 0 0.
Proof. cbn. apply V3_eq; cbn; field. Qed.
Lemma ca_run w : est_run (build caF) (caPre w) = Ok (e_set_prop (build caF) (caP3 w)) /\ protocol (build caF) (caPre w).
Proof.
  assert (est_step (build caF) (OImu (caM w)) = Ok (e_set_prop (build caF) (caP1 w))) as S1 by (cbn [est_step]; rewrite build_eq; reflexivity).
  assert (est_step (e_set_prop (build caF) (caP1 w)) OInitBias = Ok (e_set_prop (build caF) (caP2 w))) as S2 by (rewrite build_eq; reflexivity).
  assert (est_step (e_set_prop (build caF) (caP2 w)) OInitBias = Ok (e_set_prop (build caF) (caP3 w))) as S3.
  { cbn [est_step]. unfold InitBias. cbn [e_prop e_set_prop e_set of_opt bind]. reflexivity. }
  split; [unfold caPre; rewrite !run_cons, S1; cbn [bind]; rewrite run_cons, S2; cbn [bind]; rewrite run_cons, S3; reflexivity|].
  split; [exact I|]. intros e' E. rewrite S1 in E. injection E as <-. split; [split; rewrite build_eq; reflexivity|].
  intros e' E. rewrite S2 in E. injection E as <-. split; [split; rewrite build_eq; reflexivity|]. intros e' E. exact I.
Qed.
Lemma ca_stream w : imu_stream (caM w :: exM 1 :: exM 1 :: []).
Proof. split; [repeat constructor; unfold qnorm2; cbn; ring|]. cbn. lra. Qed.
Lemma ca_post w : exists a1 s1 s2, legal caF (caPre w ++ OClear :: clPost) /\ Clear (e_set_prop (build caF) (caP3 w)) = Ok a1 /\ published any_op a1 clPost = [s1; s2] /\ gbias s1 = mkV w 0 0.
Proof.
  destruct (ca_run w) as [ER PR]. pose proof (build_ok caF _ caF_ok (ca_stream w)) as K0.
  assert (est_ok [exM 1; exM 1] (e_set_prop (build caF) (caP3 w))) as K.
  { destruct (run_prefix (caPre w) [OImu (exM 1); OImu (exM 1)] (build caF) (e_set_prop (build caF) (caP3 w)) K0) as [K _]; [|exact ER|exact K].
    apply protocol_app; [exact PR|]. intros e' _. split; [exact I|]. intros. split; [exact I|]. intros; exact I. }
  destruct (clear_boot (e_set_prop (build caF) (caP3 w)) (caP3 w) (exM 1) (exM 1) [] K) as (a1 & e' & s1 & s2 & ls & C1 & C2 & C3 & C4 & C5 & _); try reflexivity; try (rewrite build_eq; reflexivity).
  exists a1, s1, s2. split.
  - split; [exact caF_ok|]. split; [exact (ca_stream w)|]. apply protocol_app; [exact PR|]. intros x X. rewrite ER in X. injection X as <-. split; [exact I|]. intros x X. cbn [est_step] in X. rewrite C1 in X. injection X as <-. exact C2.
  - split; [exact C1|]. split; [exact C4|]. rewrite C5. apply caP3_bg.
Qed.
Lemma thm_clear_calibration : exists f pre1 pre2 post a b a1 b1, legal f (pre1 ++ OClear :: post) /\ legal f (pre2 ++ OClear :: post) /\
  est_run (build f) pre1 = Ok a /\ est_run (build f) pre2 = Ok b /\ Clear a = Ok a1 /\ Clear b = Ok b1 /\
  ~ Forall2 same_numbers (published any_op a1 post) (published any_op b1 post).
Proof.
  destruct (ca_post 1) as (a1 & s1 & s2 & A1 & A2 & A3 & A4). destruct (ca_post 2) as (b1 & t1 & t2 & B1 & B2 & B3 & B4).
  exists caF, (caPre 1), (caPre 2), clPost, (e_set_prop (build caF) (caP3 1)), (e_set_prop (build caF) (caP3 2)), a1, b1.
  split; [exact A1|]. split; [exact B1|]. split; [apply ca_run|]. split; [apply ca_run|]. split; [exact A2|]. split; [exact B2|]. rewrite A3, B3. intros F. inversion F as [|? ? ? ? N _]; subst.
  unfold same_numbers in N. assert (gbias s1 = gbias t1) as G. { change (gbias (set_cmap s1 []) = gbias (set_cmap t1 [])). rewrite N. reflexivity. }
  rewrite A4, B4 in G. injection G. lra.
Qed.
