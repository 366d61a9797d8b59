(** Proofs: the pose logger (C31). *)
From Coq Require Import Reals ZArith List Bool Arith Lia Lra.
From Verif Require Import Res Vec3 Mat MatInv Psd Spec LieGroup LieSO3 LieSEK RobotState StateProofs Inekf SpecFilter InekfThms Blk Imu Propagation SpecProp
  PropagationThms ImuRest ImuThms ImuNeg Queue VelCorr LegCorr SpecCorr VelThms PsdBlk LegThms LegUpd LegHist Quat QuatThms Estimator SpecEst EstInv EstSafe EstPub EstHist EstTime.
Import ListNotations.
Local Open Scope R_scope.

Definition pend (e : est) : list rstate := match e_pending e with Some x => [x] | None => [] end.

Lemma subseq_refl {A} (l : list A) : subseq l l.
Proof. induction l; constructor; auto. Qed.
Lemma subseq_nil {A} (l : list A) : subseq [] l.
Proof. induction l; constructor; auto. Qed.
Lemma subseq_drop {A} (a b c x : list A) : subseq x (a ++ c) -> subseq x (a ++ b ++ c).
Proof.
  revert x. induction a as [|y a IH]; intros x H; cbn [app] in *.
  - induction b; [exact H|]. constructor. exact IHb.
  - inversion H; subst; constructor; auto.
Qed.

(** what the steps do to the logging side *)
Lemma step_log e o e' fut : est_ok (op_imu o ++ fut) e -> allowed e o -> est_step e o = Ok e' -> e_logger e = true -> 0 < e_rate e ->
  match o with
  | OLogWrite =>
    match e_pending e with
    | None => e' = e
    | Some x => log_wait e = x :: log_wait e' /\ exists t, st x = Some t /\
      if Rle_dec (1 / e_rate e) (t - e_lastpub e)
      then exists ln, e_lines e' = e_lines e ++ [ln] /\ e_lastpub e' = t /\ line_for x ln
      else e_lines e' = e_lines e /\ e_lastpub e' = e_lastpub e
    end
  | OClear => pend e' = pend e /\ e_logq e' = [] /\ e_lines e' = e_lines e /\ e_lastpub e' = e_lastpub e
  | _ => log_wait e' = log_wait e ++ step_pub is_run_op e o e' /\ e_lines e' = e_lines e /\ e_lastpub e' = e_lastpub e
  end.
Proof.
  intros HE HA E HL HR. assert (forall x : est, e_logq x = e_logq e -> e_pending x = e_pending e -> log_wait x = log_wait e ++ []) as HW.
  { intros x H1 H2. unfold log_wait, pend. rewrite H1, H2, app_nil_r. reflexivity. }
  destruct o; cbn [est_step] in E; unfold step_pub; cbn [is_run_op].
  - destruct (e_prop e) as [ip|]; [|discriminate]. injection E as <-. rewrite HW; auto.
  - injection E as <-. rewrite HW; auto.
  - injection E as <-. rewrite HW; auto.
  - unfold InitBias in E. destruct (e_prop e) as [ip|]; [|discriminate]. cbn in E. apply bind_inv in E. destruct E as (ip' & _ & E). injection E as <-. rewrite HW; auto.
  - unfold InitState in E. destruct (e_prop e) as [ip|]; [|discriminate]. cbn in E. apply bind_inv in E. destruct E as ([[b ip'] s] & _ & E). destruct b; cbn [negb] in E.
    + apply bind_inv in E. destruct E as ([cs s1] & E2 & E). repeat (apply bind_inv in E; destruct E as (? & _ & E)). injection E as <-. rewrite HW; auto.
    + injection E as <-. rewrite HW; auto.
  - unfold RunOnce in E. destruct (e_prop e) as [ip|]; [|discriminate]. cbn in E. apply bind_inv in E. destruct E as ([[b ip'] s] & _ & E).
    apply bind_inv in E. destruct E as ([[[b2 cs] h] s1] & E2 & E). rewrite (ok_slip _ _ HE) in E.
    destruct (b || b2); cbn [bind] in E; injection E as <-; cbn [e_out e_set e_lines e_lastpub].
    + rewrite skipn_app_len, HL. unfold log_wait, pend. cbn. rewrite app_assoc. auto.
    + rewrite skipn_len. rewrite HW; auto.
  - unfold Clear in E. destruct (e_prop e) as [ip|]; [|discriminate]. cbn in E. rewrite HL in E. destruct (e_names e). injection E as <-. auto.
  - injection E as <-. rewrite HW; auto.
  - injection E as <-. unfold LogPop, log_wait, pend. destruct (e_pending e) as [x|] eqn:Ep; [rewrite Ep, app_nil_r; auto|].
    destruct (e_logq e) eqn:El; cbn; [rewrite Ep, El|]; rewrite ?app_nil_r; auto.
  - pose proof (ok_pub _ _ HE) as Hpub. unfold waiting in Hpub. apply Forall_app in Hpub. destruct Hpub as [_ Hpub]. apply Forall_app in Hpub. destruct Hpub as [_ Hpub].
    unfold LogWrite in E. unfold log_wait, pend. destruct (e_pending e) as [x|] eqn:Ep; [|congruence]. inversion Hpub as [|y z S0 _]; subst.
    destruct S0 as (n & t & W & _ & Et). unfold get_time in E. rewrite Et in E. cbn [of_opt bind] in E. rewrite HL in E. cbn [andb] in E. unfold log_due in E.
    destruct (Req_EM_T (e_rate e) 0); [lra|].
    assert (stype x = WorldCentric) as ET by apply W.
    assert (get_velocity x = Ok (col (sX x) 0) /\ get_position x = Ok (col (sX x) 1)) as [V1 V2].
    { destruct W as [[WX _ _ _ _] HK _ _ _]. unfold get_velocity, get_position. rewrite !cgetV3_ok; auto; rewrite ?(sek_rows _ _ WX), ?(sek_cols _ _ WX); lia. }
    unfold get_world_rotation, get_world_position, get_world_velocity, get_body_velocity in E. rewrite ET, V1, V2, (get_rotation_ok _ _ W) in E. cbn [bind] in E.
    destruct (Rle_dec (1 / e_rate e) (t - e_lastpub e)) as [Hd|Hd] eqn:Ed; cbv iota in E; injection E as <-; (split; [reflexivity|]); exists t; (split; [exact Et|]); rewrite Ed.
    + eexists. split; [reflexivity|]. split; [reflexivity|]. unfold line_for. cbn. destruct (thm_quat_of_mat (rot (sX x))) as [Q1 Q2]; [apply W|]. auto 10.
    + auto.
Qed.

Lemma run_log : forall os e e', est_ok (imus os) e -> protocol e os -> est_run e os = Ok e' -> e_logger e = true -> 0 < e_rate e ->
  exists done new, subseq done (log_wait e ++ published is_run_op e os) /\
    e_lines e' = e_lines e ++ new /\ Forall2 line_for (decimate (1 / e_rate e) (e_lastpub e) done) new /\
    (forallb no_clear os = true -> log_wait e ++ published is_run_op e os = done ++ log_wait e').
Proof.
  induction os as [|o os IH]; intros e e' HE HP E HL HR; cbn in E.
  - injection E as <-. exists [], []. split; [apply subseq_nil|]. split; [rewrite app_nil_r; reflexivity|]. split; [constructor|]. intros _. cbn. rewrite app_nil_r. reflexivity.
  - apply bind_inv in E. destruct E as (e1 & E1 & E). rewrite imus_cons in HE. destruct HP as [HA HP]. pose proof (step_log _ _ _ _ HE HA E1 HL HR) as HS.
    destruct (step_safe _ _ _ HE HA) as [(x & X1 & HE')|[X1 _]]; [|congruence]. rewrite E1 in X1. injection X1 as <-.
    destruct (step_fixed _ _ _ E1) as (FX & _). assert (e_logger e1 = true /\ e_rate e1 = e_rate e) as [HL1 HR1] by (unfold e_fixed in FX; injection FX; intros; split; congruence).
    destruct (IH e1 e' HE' (HP _ E1) E HL1 ltac:(rewrite HR1; exact HR)) as (done & new & S1 & L1 & D1 & N1). rewrite HR1 in D1. clear IH.
    cbn [published]. rewrite E1. fold (step_pub is_run_op e o e1).
    assert ((log_wait e1 = log_wait e ++ step_pub is_run_op e o e1 /\ e_lines e1 = e_lines e /\ e_lastpub e1 = e_lastpub e) ->
       exists done new, subseq done (log_wait e ++ step_pub is_run_op e o e1 ++ published is_run_op e1 os) /\
        e_lines e' = e_lines e ++ new /\ Forall2 line_for (decimate (1 / e_rate e) (e_lastpub e) done) new /\
        (forallb no_clear (o :: os) = true -> log_wait e ++ step_pub is_run_op e o e1 ++ published is_run_op e1 os = done ++ log_wait e')) as HG.
    { intros (G1 & G2 & G3). exists done, new. rewrite app_assoc, <- G1, <- G2, <- G3. split; [exact S1|]. split; [exact L1|]. split; [exact D1|].
      cbn [forallb]. intros Hc. apply andb_prop in Hc. apply N1, Hc. }
    destruct o; try (exact (HG HS)).
    + (* OClear *) destruct HS as (G1 & G2 & G3 & G4). exists done, new. cbn [step_pub is_run_op app]. rewrite <- G3, <- G4. unfold log_wait in *. fold (pend e1) in S1. fold (pend e). rewrite G1, G2, app_nil_r in S1.
      split; [rewrite <- app_assoc; apply subseq_drop; exact S1|]. split; [exact L1|]. split; [exact D1|]. cbn. discriminate.
    + (* OLogWrite *) destruct (e_pending e) as [x|] eqn:Ep.
      2:{ subst e1. apply HG. cbn [step_pub is_run_op]. rewrite app_nil_r. auto. }
      destruct HS as (G1 & t & G2 & G3). cbn [step_pub is_run_op app]. rewrite G1. exists (x :: done).
      destruct (Rle_dec (1 / e_rate e) (t - e_lastpub e)) as [Hd|Hd] eqn:Ed.
      * destruct G3 as (ln & G4 & G5 & G6). exists (ln :: new). split; [constructor; exact S1|]. split; [rewrite L1, G4, <- app_assoc; reflexivity|]. split.
        { cbn [decimate]. rewrite G2, Ed. constructor; [exact G6|]. rewrite <- G5. exact D1. }
        cbn [forallb no_clear andb app]. intros Hc. f_equal. apply N1, Hc.
      * destruct G3 as [G4 G5]. exists new. split; [constructor; exact S1|]. split; [rewrite L1, G4; reflexivity|]. split.
        { cbn [decimate]. rewrite G2, Ed, <- G5. exact D1. }
        cbn [forallb no_clear andb app]. intros Hc. f_equal. apply N1, Hc.
Qed.
Lemma decimate_spaced d : forall ss last lns, Forall2 line_for (decimate d last ss) lns -> spaced d (last :: map ll_t lns).
Proof.
  induction ss as [|s ss IH]; intros last lns H; cbn [decimate] in H; [inversion H; cbn; auto|].
  destruct (st s) as [t|] eqn:Et; [|apply IH; exact H]. destruct (Rle_dec d (t - last)); [|apply IH; exact H].
  inversion H as [|x ln y lns' L1 L2]; subst. cbn [map]. assert (ll_t ln = t) as El by (destruct L1 as [L1 _]; congruence).
  pose proof (IH t lns' L2) as IHs. cbn [spaced]. rewrite El. split; [lra|]. exact IHs.
Qed.
Lemma thm_log f os e : reachable f os e -> k_logger (f_est f) = true -> let rate := dflt (k_rate (f_est f)) 10 in 0 < rate ->
  exists done, subseq done (published is_run_op (build f) os) /\
    Forall2 line_for (decimate (1 / rate) 0 done) (e_lines e) /\
    spaced (1 / rate) (0 :: map ll_t (e_lines e)) /\
    (forallb no_clear os = true -> published is_run_op (build f) os = done ++ log_wait e).
Proof.
  intros (HC & HS & HP & HR) HL rate Hr.
  destruct (run_log os (build f) e (build_ok f _ HC HS) HP HR) as (done & new & S1 & L1 & D1 & N1); [rewrite build_eq; exact HL|rewrite build_eq; exact Hr|].
  assert (e_lines (build f) = [] /\ e_lastpub (build f) = 0 /\ e_rate (build f) = rate /\ log_wait (build f) = []) as (B1 & B2 & B3 & B4) by (rewrite build_eq; auto).
  rewrite B1 in L1. rewrite B2, B3 in D1. rewrite B4 in S1, N1. cbn [app] in *. subst new. exists done. split; [exact S1|]. split; [exact D1|]. split; [|exact N1].
  eapply decimate_spaced; eauto.
Qed.
