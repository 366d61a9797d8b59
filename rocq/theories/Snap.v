(** Proofs for C46: what later steps do to the ids shared with published states. *)
From Coq Require Import Reals ZArith List Bool Arith Lia Lra.
From Verif Require Import Res Vec3 Mat MatInv Psd Spec LieGroup LieSO3 LieSEK RobotState StateProofs Inekf SpecFilter Imu Propagation SpecProp
  Queue VelCorr LegCorr SpecCorr VelThms LegThms LegLoop LegUpd LegHist Estimator SpecEst EstInv EstSafe EstPub ClearThms SpecSnap.
Import ListNotations.
Local Open Scope R_scope.

Definition hext (h h' : heap) : Prop := forall p v, nth_error h p = Some v -> nth_error h' p = Some v.
Lemma hext_refl h : hext h h. Proof. intros p v H. exact H. Qed.
Lemma hext_trans a b c : hext a b -> hext b c -> hext a c. Proof. intros A B p v H. apply B, A, H. Qed.
Lemma upd_keep {A} (l : list A) i x p v : p <> i -> nth_error l p = Some v -> nth_error (upd l i x) p = Some v.
Proof. revert i p. induction l as [|a l IH]; intros [|i] [|p] N H; cbn in *; auto; congruence. Qed.

Lemma scan_sets c h s : forall legs id HNZ rem new HNZ' rem' new',
  scan_legs c h s id legs (HNZ, rem, new) = Ok (HNZ', rem', new') -> rem' = rem ++ removed c id legs /\ new' = new ++ added c id legs.
Proof.
  induction legs as [|g legs IH]; intros id HNZ rem new HNZ' rem' new' E; cbn [scan_legs removed added] in *.
  - injection E as <- <- <-. rewrite !app_nil_r. auto.
  - apply bind_inv in E. destruct E as ([[H1 r1] n1] & E1 & E). destruct (IH _ _ _ _ _ _ _ E) as [-> ->].
    destruct (lo_contact g), (lc_map c id) as [a|]; cbn [app].
    + apply bind_inv in E1. destruct E1 as (z & _ & E1). apply bind_inv in E1. destruct E1 as (X & _ & E1). injection E1 as _ <- <-. auto.
    + injection E1 as _ <- <-. rewrite <- !app_assoc, leg_cov_eq. auto.
    + injection E1 as _ <- <-. rewrite <- !app_assoc. auto.
    + injection E1 as _ <- <-. auto.
Qed.
Lemma remove_map : forall rem h s m h' s' m', foldM remove_leg (h, s, m) rem = Ok (h', s', m') -> forall id, In id rem -> m' id = None.
Proof.
  assert (forall rem h s m h' s' m', foldM remove_leg (h, s, m) rem = Ok (h', s', m') -> forall id, m id = None -> m' id = None) as HN.
  { induction rem as [|x rem IH]; intros h s m h' s' m' E id N; cbn [foldM] in E.
    - injection E as _ _ <-. exact N.
    - apply bind_inv in E. destruct E as ([[h1 s1] m1] & E1 & E). apply (IH _ _ _ _ _ _ E).
      cbn [remove_leg] in E1. repeat (apply bind_inv in E1; destruct E1 as (? & _ & E1)). destruct x2 as [h2 s2]. injection E1 as _ _ <-. unfold mupd. destruct (Nat.eqb id x); auto. }
  induction rem as [|x rem IH]; intros h s m h' s' m' E id HI; [destruct HI|]. cbn [foldM] in E.
  apply bind_inv in E. destruct E as ([[h1 s1] m1] & E1 & E). destruct HI as [->|HI]; [|apply (IH _ _ _ _ _ _ E _ HI)].
  apply (HN _ _ _ _ _ _ _ E). cbn [remove_leg] in E1. repeat (apply bind_inv in E1; destruct E1 as (? & _ & E1)). destruct x1 as [h2 s2]. injection E1 as _ _ <-. unfold mupd. rewrite Nat.eqb_refl. reflexivity.
Qed.
Lemma add_leg_heap c h s m P n h' s' m' P' : add_leg c (h, s, m, P) n = Ok (h', s', m', P') -> hext h h' /\ forall id, id <> nid n -> m' id = m id.
Proof.
  destruct n as [[id0 pose] cov]. cbn [add_leg]. intros E.
  apply bind_inv in E. destruct E as (p & _ & E). apply bind_inv in E. destruct E as (Rm & _ & E). apply bind_inv in E. destruct E as ([F G] & _ & E).
  do 5 (apply bind_inv in E; destruct E as (? & _ & E)). cbn [heap_new] in E. apply bind_inv in E. destruct E as ([s1 ai] & _ & E). apply bind_inv in E. destruct E as (h1 & E1 & E).
  injection E as <- _ <- _. cbn [heap_set] in E1. apply bind_inv in E1. destruct E1 as (? & _ & E1). injection E1 as <-. split.
  - intros q v H. assert (q < length h)%nat as L by (apply nth_error_Some; congruence). apply upd_keep; [lia|]. rewrite nth_error_app1; auto.
  - intros id N. unfold mupd. cbn in N. destruct (Nat.eqb_spec id id0); congruence.
Qed.
Lemma add_legs_heap c : forall new h s m P h' s' m' P', foldM (add_leg c) (h, s, m, P) new = Ok (h', s', m', P') ->
  hext h h' /\ forall id, ~ In id (map nid new) -> m' id = m id.
Proof.
  induction new as [|n new IH]; intros h s m P h' s' m' P' E; cbn [foldM] in E.
  - injection E as <- _ <- _. split; [apply hext_refl|auto].
  - apply bind_inv in E. destruct E as ([[[h1 s1] m1] P1] & E1 & E). destruct (add_leg_heap _ _ _ _ _ _ _ _ _ _ E1) as [A B].
    destruct (IH _ _ _ _ _ _ _ _ E) as [A' B']. split; [eapply hext_trans; eauto|]. intros id N. cbn in N. rewrite B', B; auto; intros C; apply N; auto.
Qed.
Lemma leg_update_heap c h m s c' h' s' : leg_update c h m s = Ok (c', h', s') -> (forall id, lc_map c id <> None -> lc_map c' id <> None) -> hext h h'.
Proof.
  unfold leg_update. intros E K. apply bind_inv in E. destruct E as ([[[[H N] Z] rem] new] & E1 & E).
  destruct (scan_sets _ _ _ _ _ _ _ _ _ _ _ E1) as [-> ->]. cbn [app] in E.
  apply bind_inv in E. destruct E as (s1 & _ & E). apply bind_inv in E. destruct E as ([[h1 s2] mp] & E2 & E).
  apply bind_inv in E. destruct E as ([[[h2 s3] mp2] P] & E3 & E). injection E as <- <- <-. destruct (add_legs_heap _ _ _ _ _ _ _ _ _ _ E3) as [A B].
  assert (removed c 0 (lm_legs m) = []) as R.
  { destruct (removed c 0 (lm_legs m)) as [|id r] eqn:ER; [reflexivity|exfalso]. assert (In id (removed c 0 (lm_legs m))) as HI by (rewrite ER; left; reflexivity).
    assert (mp id = None) as M by (apply (remove_map _ _ _ _ _ _ _ E2); left; reflexivity). apply removed_spec in HI. destruct HI as (o & _ & _ & C0 & HM).
    apply (K id HM). cbn [lc_map lc_set_map]. rewrite B; [exact M|]. intros HA. apply added_spec in HA. destruct HA as (o' & _ & _ & _ & HA). auto. }
  rewrite R in E2. cbn [foldM] in E2. injection E2 as <- _ _. exact A.
Qed.
Lemma leg_Correct_heap c h s a b c' h' s' : leg_Correct c h s a = Ok (b, c', h', s') -> (forall id, lc_map c id <> None -> lc_map c' id <> None) -> hext h h'.
Proof.
  intros E K. destruct (leg_Correct_spec _ _ _ _ _ _ _ _ E) as (f & _ & _ & _ & F). destruct (f_used f) as [m|].
  - destruct F as (_ & q & E1 & _). apply (leg_update_heap _ _ _ _ _ _ _ E1). exact K.
  - destruct F as (_ & _ & -> & _). apply hext_refl.
Qed.
Lemma correct_all_heap : forall cs h s l b cs' h' s', correct_all cs h s l = Ok (b, cs', h', s') -> (n_leg cs <= 1)%nat ->
  n_leg cs' = n_leg cs /\ ((forall id, (exists c, In (CLeg c) cs /\ lc_map c id <> None) -> exists c, In (CLeg c) cs' /\ lc_map c id <> None) -> hext h h').
Proof.
  assert (forall cs c, In (CLeg c) cs -> (0 < n_leg cs)%nat) as HIN.
  { induction cs as [|x cs IH]; intros c H; [destruct H|]. destruct H as [->|H]; unfold n_leg; cbn; [lia|]. specialize (IH _ H). unfold n_leg in IH. destruct (is_CLeg x); cbn; lia. }
  induction cs as [|c cs IH]; intros h s l b cs' h' s' E L; cbn [correct_all] in E.
  - injection E as _ <- <- _. split; [reflexivity|]. intros _. apply hext_refl.
  - apply bind_inv in E. destruct E as ([[[b1 c1] h1] s1] & E1 & E). apply bind_inv in E. destruct E as ([[[b2 cs2] h2] s2] & E2 & E). injection E as _ <- <- _.
    destruct c as [c|c]; cbn [corr_Correct] in E1; apply bind_inv in E1.
    + destruct E1 as ([[? cv] ?] & _ & E1). injection E1 as _ <- <- _. destruct (IH _ _ _ _ _ _ _ E2 L) as [A B]. split; [exact A|]. intros K. apply B.
      intros id (d & D1 & D2). destruct (K id) as (d' & [D3|D3] & D4); [exists d; split; [right; exact D1|exact D2]|discriminate|eauto].
    + destruct E1 as ([[[? cv] hv] sv] & E1 & E3). injection E3 as _ <- <- _. unfold n_leg in L. cbn in L.
      assert (n_leg cs = 0)%nat as L0 by (unfold n_leg; lia). destruct (IH _ _ _ _ _ _ _ E2) as [A B]; [lia|]. split; [unfold n_leg in *; cbn; congruence|]. intros K.
      eapply hext_trans; [apply (leg_Correct_heap _ _ _ _ _ _ _ _ E1)|apply B].
      * intros id N. destruct (K id) as (d & [D1|D1] & D2); [exists c; split; [left; reflexivity|exact N]|injection D1 as ->; exact D2|]. exfalso. apply HIN in D1. lia.
      * intros id (d & D1 & D2). exfalso. apply HIN in D1. lia.
Qed.
Lemma spin_ok_heap e l e' : InitState e l = Ok e' -> e_heap e' = e_heap e.
Proof.
  unfold InitState. intros E. apply bind_inv in E. destruct E as (ip & _ & E). apply bind_inv in E. destruct E as ([[b ip'] s] & _ & E).
  destruct (negb b); [injection E as <-; reflexivity|]. apply bind_inv in E. destruct E as ([cs s1] & _ & E).
  do 3 (apply bind_inv in E; destruct E as (? & _ & E)). injection E as <-. reflexivity.
Qed.
Lemma step_heap e o e' : (n_leg (e_corrs e) <= 1)%nat -> est_step e o = Ok e' ->
  (o = OClear \/ forall id, leg_tracked e id -> leg_tracked e' id) -> hext (e_heap e) (e_heap e').
Proof.
  intros L E K. assert (e_heap e' = e_heap e -> hext (e_heap e) (e_heap e')) as HE by (intros ->; apply hext_refl).
  destruct o; cbn [est_step] in E.
  - apply bind_inv in E. destruct E as (ip & _ & E). injection E as <-. apply HE. reflexivity.
  - injection E as <-. apply HE. reflexivity.
  - injection E as <-. apply HE. reflexivity.
  - unfold InitBias in E. apply bind_inv in E. destruct E as (ip & _ & E). apply bind_inv in E. destruct E as (ip' & _ & E). injection E as <-. apply HE. reflexivity.
  - apply HE, (spin_ok_heap _ _ _ E).
  - destruct K as [K|K]; [discriminate|]. unfold RunOnce in E. apply bind_inv in E. destruct E as (ip & _ & E). apply bind_inv in E. destruct E as ([[b ip'] s] & _ & E).
    apply bind_inv in E. destruct E as ([[[b' cs] h] s'] & E1 & E). destruct (correct_all_heap _ _ _ _ _ _ _ _ E1 L) as [_ H].
    assert (e_heap e' = h /\ e_corrs e' = cs) as [Hh Hc].
    { destruct (b || b'); [apply bind_inv in E; destruct E as (s2 & _ & E)|]; injection E as <-; auto. }
    rewrite Hh. apply H. intros id T. specialize (K id T). unfold leg_tracked in K. rewrite Hc in K. exact K.
  - unfold Clear in E. apply bind_inv in E. destruct E as (ip & _ & E). destruct (e_logger _) in E; [destruct (e_names _) in E|]; injection E as <-; apply HE; reflexivity.
  - injection E as <-. apply HE. reflexivity.
  - injection E as <-. apply HE. unfold LogPop. destruct (e_pending e); [reflexivity|]. destruct (e_logq e); reflexivity.
  - unfold LogWrite in E. destruct (e_pending e) as [x|]; [|injection E as <-; apply HE; reflexivity]. apply bind_inv in E. destruct E as (t & _ & E).
    destruct (e_logger e && log_due (e_rate e) (t - e_lastpub e))%bool; [|injection E as <-; apply HE; reflexivity].
    do 4 (apply bind_inv in E; destruct E as (? & _ & E)). injection E as <-. apply HE. reflexivity.
Qed.
Lemma run_heap : forall os e e', est_ok (imus os) e -> protocol e os -> est_run e os = Ok e' -> no_contact_lost e os -> hext (e_heap e) (e_heap e').
Proof.
  induction os as [|o os IH]; intros e e' HK HP ER HN.
  - injection ER as <-. apply hext_refl.
  - unfold est_run in ER. cbn [foldM] in ER. apply bind_inv in ER. destruct ER as (e1 & E1 & ER). destruct HP as [HA HP]. specialize (HP e1 E1). destruct (HN e1 E1) as [N1 N2].
    eapply hext_trans; [apply (step_heap e o e1); auto; apply (ok_legs _ _ HK)|]. apply IH; auto.
    rewrite imus_cons in HK. destruct (step_safe (imus os) e o HK HA) as [(x & X1 & X2)|[X1 _]]; rewrite E1 in X1; [|discriminate]. injection X1 as <-. exact X2.
Qed.
(** the ids of the current state are right *)
Lemma core_right o h s : core o h s -> ids_right h s.
Proof.
  intros (ids & C & _ & _) j Hj. pose proof (contacts_wfp _ _ _ _ C) as W. rewrite (sek_cols _ _ (wf_X _ _ (wp_wf _ _ W))) in Hj. destruct o as [c|].
  - cbn in C. destruct (nth_error ids (j - 5)) as [a|] eqn:Ea; [|apply nth_error_None in Ea; lia]. exists a. split.
    + rewrite (tr_cmap _ _ _ _ C). rewrite nth_error_app2 by (rewrite repeat_length; lia). rewrite repeat_length. rewrite nth_error_map, Ea. reflexivity.
    + rewrite (tr_heap _ _ _ _ C _ _ Ea). do 2 f_equal. lia.
  - destruct C as (-> & _). cbn in Hj. lia.
Qed.
(** what a step publishes is its new state *)
Lemma new_out fut e o e' s : est_ok (op_imu o ++ fut) e -> allowed e o -> est_step e o = Ok e' -> In s (skipn (length (e_out e)) (e_out e')) ->
  s = e_state e' /\ e_enabled e' = true.
Proof.
  intros HK HA E HI. assert (skipn (length (e_out e)) (e_out e) = []) as S0 by apply skipn_all. assert (forall x, skipn (length (e_out e)) (e_out e ++ [x]) = [x]) as S1.
  { intros x. rewrite skipn_app, skipn_all, Nat.sub_diag. reflexivity. }
  assert (e_out e' = e_out e -> s = e_state e' /\ e_enabled e' = true) as HE by (intros Eo; rewrite Eo, S0 in HI; destruct HI).
  destruct o; cbn [est_step] in E.
  - apply bind_inv in E. destruct E as (ip & _ & E). injection E as <-. apply HE. reflexivity.
  - injection E as <-. apply HE. reflexivity.
  - injection E as <-. apply HE. reflexivity.
  - unfold InitBias in E. apply bind_inv in E. destruct E as (ip & _ & E). apply bind_inv in E. destruct E as (ip' & _ & E). injection E as <-. apply HE. reflexivity.
  - clear HA. unfold InitState in E. apply bind_inv in E. destruct E as (ip & _ & E). apply bind_inv in E. destruct E as ([[b ip'] s0] & _ & E).
    destruct (negb b); [injection E as <-; apply HE; reflexivity|]. apply bind_inv in E. destruct E as ([cs s1] & _ & E).
    do 3 (apply bind_inv in E; destruct E as (? & _ & E)). injection E as <-. cbn [e_out e_set] in HI. rewrite S1 in HI. destruct HI as [<-|[]]. auto.
  - pose proof (ok_slip _ _ HK) as SL. cbn in HA. unfold RunOnce in E. apply bind_inv in E. destruct E as (ip & _ & E). apply bind_inv in E. destruct E as ([[b ip'] s0] & _ & E).
    apply bind_inv in E. destruct E as ([[[b' cs] h] s'] & E1 & E). rewrite SL in E. cbn [bind] in E. destruct (b || b'); injection E as <-; [|apply HE; reflexivity].
    cbn [e_out e_set] in HI. rewrite S1 in HI. destruct HI as [<-|[]]. cbn. auto.
  - unfold Clear in E. apply bind_inv in E. destruct E as (ip & _ & E). destruct (e_logger _) in E; [destruct (e_names _) in E|]; injection E as <-; cbn in HI; rewrite skipn_nil in HI; destruct HI.
  - injection E as <-. cbn [e_out e_set_out e_set] in HI. exfalso. rewrite skipn_all2 in HI by (destruct (e_out e); cbn [tl length]; lia). destruct HI.
  - injection E as <-. apply HE. unfold LogPop. destruct (e_pending e); [reflexivity|]. destruct (e_logq e); reflexivity.
  - unfold LogWrite in E. destruct (e_pending e) as [x|]; [|injection E as <-; apply HE; reflexivity]. apply bind_inv in E. destruct E as (t & _ & E).
    destruct (e_logger e && log_due (e_rate e) (t - e_lastpub e))%bool; [|injection E as <-; apply HE; reflexivity].
    do 4 (apply bind_inv in E; destruct E as (? & _ & E)). injection E as <-. apply HE. reflexivity.
Qed.
Lemma thm_snapshot f os o os' e0 e1 e2 s : config_ok f -> imu_stream (imus (os ++ o :: os')) -> protocol (build f) (os ++ o :: os') ->
  est_run (build f) os = Ok e0 -> est_step e0 o = Ok e1 -> est_run e1 os' = Ok e2 -> In s (skipn (length (e_out e0)) (e_out e1)) ->
  no_contact_lost e1 os' -> ids_right (e_heap e1) s /\ ids_right (e_heap e2) s.
Proof.
  intros HC HS HP E0 E1 E2 HI HN. destruct (run_prefix os (o :: os') _ _ (build_ok f _ HC HS) HP E0) as [HK [HA HP1]]. specialize (HP1 _ E1).
  rewrite imus_cons in HK. destruct (new_out _ _ _ _ _ HK HA E1 HI) as [-> En].
  destruct (step_safe (imus os') e0 o HK HA) as [(x & X1 & X2)|[X1 _]]; rewrite E1 in X1; [|discriminate]. injection X1 as <-.
  assert (ids_right (e_heap e1) (e_state e1)) as HR by (eapply core_right, (ok_on _ _ X2 En)). split; [exact HR|].
  intros j Hj. destruct (HR j Hj) as (p & P1 & P2). exists p. split; [exact P1|]. apply (run_heap os' e1 e2 X2 HP1 E2 HN). exact P2.
Qed.
