(** A concrete history with two feet in contact: non-vacuity and the counterexample for C46. *)
From Coq Require Import Reals ZArith List Bool Arith Lia Lra.
From Verif Require Import Res Vec3 Mat MatInv Psd Spec LieGroup LieSO3 LieSEK RobotState StateProofs Inekf SpecFilter Imu Propagation SpecProp
  Queue VelCorr LegCorr SpecCorr VelThms LegThms LegLoop LegUpd LegHist Estimator SpecEst EstInv EstSafe EstPub EstHist EstTime EstEx ClearThms ClearEx YawEx SpecSnap Snap.
Import ListNotations.
Local Open Scope R_scope.

(** legs that stay tracked keep their pointer *)
Lemma remove_map2 : forall rem h s m h' s' m', foldM remove_leg (h, s, m) rem = Ok (h', s', m') -> forall id, m' id = None \/ m' id = m id.
Proof.
  induction rem as [|x rem IH]; intros h s m h' s' m' E id; cbn [foldM] in E.
  - injection E as _ _ <-. auto.
  - apply bind_inv in E. destruct E as ([[h1 s1] m1] & E1 & E). cbn [remove_leg] in E1. repeat (apply bind_inv in E1; destruct E1 as (? & _ & E1)). destruct x2 as [h2 s2]. injection E1 as _ _ <-.
    destruct (IH _ _ _ _ _ _ E id) as [H|H]; [auto|]. rewrite H. unfold mupd. destruct (Nat.eqb id x); auto.
Qed.
Lemma leg_update_map c h m s c' h' s' : leg_update c h m s = Ok (c', h', s') -> forall id, tracked c id -> tracked c' id -> lc_map c' id = lc_map c id.
Proof.
  unfold leg_update. intros E id T T'. apply bind_inv in E. destruct E as ([[[[H N] Z] rem] new] & E1 & E).
  destruct (scan_sets _ _ _ _ _ _ _ _ _ _ _ E1) as [-> ->]. cbn [app] in E.
  apply bind_inv in E. destruct E as (s1 & _ & E). apply bind_inv in E. destruct E as ([[h1 s2] mp] & E2 & E).
  apply bind_inv in E. destruct E as ([[[h2 s3] mp2] P] & E3 & E). injection E as <- <- <-. destruct (add_legs_heap _ _ _ _ _ _ _ _ _ _ E3) as [A B].
  assert (~ In id (map nid (added c 0 (lm_legs m)))) as NA.
  { intros HA. apply added_spec in HA. destruct HA as (o' & _ & _ & _ & HA). auto. }
  unfold tracked in T'. cbn [lc_map lc_set_map] in *. rewrite (B id NA) in T'. rewrite (B id NA).
  destruct (remove_map2 _ _ _ _ _ _ _ E2 id) as [C|C]; [contradiction|exact C].
Qed.

Lemma nth_error_nil {A} n : nth_error (@nil A) n = None. Proof. destruct n; reflexivity. Qed.
Record legged (tp : R) (e : est) (c : leg_corr) : Prop := {
  lg_en : e_enabled e = true; lg_c : e_corrs e = [CLeg c]; lg_q : lc_queue c = []; lg_i : imu_queue e = [];
  lg_tp : stprop (e_state e) = Some tp; lg_thr : lc_thr c = 3 / 10 }.
Lemma leg_run fut tp e c x : est_ok fut e -> legged tp e c -> tp - 3 / 10 <= lm_t x ->
  exists e1 e2 c', est_step e (OLeg 0 x) = Ok e1 /\ e_enabled e1 = true /\ e_heap e1 = e_heap e /\ (forall id, leg_tracked e id -> leg_tracked e1 id) /\ RunOnce e1 [] = Ok e2 /\ legged tp e2 c' /\ est_ok fut e2 /\
    (forall id, tracked c' id <-> tracked_after c x id) /\ (forall id, tracked c id -> tracked c' id -> lc_map c' id = lc_map c id) /\
    e_out e2 = e_out e ++ [e_state e2] /\ e_out e1 = e_out e.
Proof.
  intros HE [A1 A2 A3 A4 A5 A6] HT. set (c1 := lc_set_queue c [x]).
  assert (est_step e (OLeg 0 x) = Ok (e_set_corrs e [CLeg c1])) as S1 by (cbn [est_step]; rewrite A2; cbn [upd_nth push_corr]; rewrite A3; reflexivity).
  assert (est_ok fut (e_set_corrs e [CLeg c1])) as H1. { destruct (step_safe fut e (OLeg 0 x) HE I) as [(y & Y1 & Y2)|[Y _]]; [|congruence]. rewrite S1 in Y1. injection Y1 as <-. exact Y2. }
  exists (e_set_corrs e [CLeg c1]).
  assert (forall id, leg_tracked e id -> leg_tracked (e_set_corrs e [CLeg c1]) id) as KT.
  { intros id (d & D1 & D2). rewrite A2 in D1. destruct D1 as [D1|[]]. injection D1 as <-. exists c1. split; [left; reflexivity|exact D2]. }
  assert (exists e2 c', RunOnce (e_set_corrs e [CLeg c1]) [] = Ok e2 /\ legged tp e2 c' /\ (forall id, tracked c' id <-> tracked_after c x id) /\ (forall id, tracked c id -> tracked c' id -> lc_map c' id = lc_map c id) /\
    e_out e2 = e_out e ++ [e_state e2]) as (e2 & c' & R2 & L2 & T2 & M2 & O2).
  2:{ exists e2, c'. split; [exact S1|]. split; [exact A1|]. split; [reflexivity|]. split; [exact KT|]. split; [exact R2|]. split; [exact L2|]. split; [|auto].
      destruct (step_safe fut _ (ORunOnce []) H1 A1) as [(y & Y1 & Y2)|[Y _]]; rewrite step_run in *; [|congruence]. rewrite R2 in Y1. injection Y1 as <-. exact Y2. }
  destruct H1 as [(ip & Hip & HN & HCal & HS & HRun) Hno Hle Hsl Hcov Hon Hoff Hpub].
  change (e_prop (e_set_corrs e [CLeg c1])) with (e_prop e) in Hip. pose proof A4 as Hq. unfold imu_queue in Hq. rewrite Hip in Hq.
  unfold RunOnce. change (e_prop (e_set_corrs e [CLeg c1])) with (e_prop e). rewrite Hip. cbn [of_opt bind]. unfold Propagate. rewrite Hq. cbn [bind].
  change (e_corrs (e_set_corrs e [CLeg c1])) with [CLeg c1] in *. change (e_heap (e_set_corrs e [CLeg c1])) with (e_heap e) in *. change (e_state (e_set_corrs e [CLeg c1])) with (e_state e) in *.
  cbn [correct_all corr_Correct hd_arr no_arr a_leg].
  assert (exists t, st (e_state e) = Some t) as [t Ht] by (destruct (HRun A1) as (? & t & ? & _ & ? & _); eauto).
  inversion Hno as [|y z N1 _]; subst. specialize (Hon A1).
  destruct (leg_step c1 (e_heap e) (e_state e) [] tp t Hon N1 A5 Ht) as (b & c' & h' & s' & t' & E & C' & N' & T' & S').
  rewrite E. cbn [bind]. 
  assert (b = true /\ lc_queue c' = [] /\ lc_thr c' = lc_thr c /\ (forall id, tracked c' id <-> tracked_after c x id) /\ (forall id, tracked c id -> tracked c' id -> lc_map c' id = lc_map c id)) as (-> & Q1 & Q2 & Q3 & Q4).
  { destruct (leg_Correct_spec _ _ _ _ _ _ _ _ E) as (f & F1 & _ & F2 & F3). destruct (F2 _ A5) as [F4 F5]. cbn in F1. destruct f as [d u]. cbn in *. 
    assert (~ stale (lc_thr c) tp (lm_t x)) as NS by (unfold stale; rewrite A6; lra).
    destruct d as [|y d]; [|exfalso; unfold consumed in F1; cbn in F1; injection F1 as <- _; inversion F4; auto].
    destruct u as [y|]; [|destruct F3 as (Fb & Fc & _); exfalso].
    - unfold consumed in F1. cbn in F1. injection F1 as <- F1. destruct F3 as [-> (q & F6 & F7)]. split; [reflexivity|]. split; [auto|].
      destruct Hon as (ids & C & _). destruct (leg_update_inv _ _ _ _ ids _ _ _ (tracks_queue c1 q _ _ ids C) F6) as (s1 & ids2 & m' & B1 & B2 & B3 & _).
      split; [rewrite B1; reflexivity|]. split; [intros id; exact (lb_tracked _ _ _ _ _ _ _ B3 id)|]. exact (leg_update_map _ _ _ _ _ _ _ F6).
    - clear Hpub HRun. cbv delta [leg_Correct] in E. cbv beta in E. cbn [c1 lc_queue lc_set_queue app hd_batch] in E. unfold get_propagate_time in E. rewrite A5 in E. cbn [of_opt bind] in E.
      change (lc_thr (lc_set_queue c [x])) with (lc_thr c) in E. unfold too_old in E. destruct (Rlt_dec (lm_t x - tp) (- lc_thr c)) as [D|D]; [rewrite A6 in D; lra|]. apply bind_inv in E.
      destruct E as ([[? ?] ?] & _ & E). injection E as E _ _ _. congruence. }
  cbn [orb]. change (e_slip (e_set_corrs e [CLeg c1])) with (e_slip (e_set_corrs e [CLeg c1])). rewrite Hsl. cbn [bind]. eexists. exists c'. split; [reflexivity|]. cbn.
  split; [|auto]. constructor; auto; cbn; congruence.
Qed.

(** *** the history *)
Definition sxF : config := mkCfg RightInvariant exE exI [GLeg no_lcfg].
Definition sxO (b : bool) : leg_obs := mkLO b (mkV 1 2 3) mid.
Definition sxL (b0 b1 : bool) : lmeas := mkLM 1 [sxO b0; sxO b1] (fun _ => vzero).
Definition sxPre : list op := [OInitBias; OImu (exM 1); OLeg 0 (sxL false false); OInitState []; OLeg 0 (sxL true true)].
Definition sxAfter (b0 b1 : bool) : list op := [OLeg 0 (sxL b0 b1); ORunOnce []].
Lemma sxF_ok : config_ok sxF.
Proof. split; [discriminate|]. split; [|cbn; lia]. repeat constructor. discriminate. Qed.
Lemma sx_stream b0 b1 : imu_stream (imus (sxPre ++ ORunOnce [] :: sxAfter b0 b1)).
Proof. split; [repeat constructor; unfold qnorm2; cbn; ring|]. cbn. exact I. Qed.
Definition sxIp2 : imu_prop := exIp2.
Lemma sx_gen e0 c0 p0 p1 m1 x : e_enabled e0 = false -> e_corrs e0 = [CLeg c0] -> lc_queue c0 = [] -> lc_thr c0 = 3 / 10 -> e_prop e0 = Some p0 -> ip_queue p0 = [] -> ip_bias_init p0 = false ->
  InitImuBias p0 = Ok p1 -> ip_bias_init p1 = true -> ip_queue p1 = [] -> est_ok [m1] e0 ->
  let os := [OInitBias; OImu m1; OLeg 0 x; OInitState []] in
  protocol e0 os /\ exists e c, est_run e0 os = Ok e /\ legged (i_t m1) e c /\ est_ok [] e /\ forall id, ~ tracked c id.
Proof.
  intros N0 C0 Q0 T0 P0 I0 B0 I1 B1 Q1 K0 os.
  assert (est_step e0 OInitBias = Ok (e_set_prop e0 p1)) as S1 by (apply (step_bias _ _ _ P0 I1)).
  assert (est_step (e_set_prop e0 p1) (OImu m1) = Ok (e_set_prop e0 (set_queue p1 [m1]))) as S2 by (rewrite (step_push _ _ m1 (set_prop_prop _ _)), set_prop_twice, Q1; reflexivity).
  set (e2 := e_set_prop e0 (set_queue p1 [m1])) in *.
  assert (est_step e2 (OLeg 0 x) = Ok (e_set_corrs e2 [CLeg (lc_set_queue c0 [x])])) as S3.
  { cbn [est_step]. change (e_corrs e2) with (e_corrs e0). rewrite C0. cbn [upd_nth push_corr]. rewrite Q0. reflexivity. }
  set (e3 := e_set_corrs e2 [CLeg (lc_set_queue c0 [x])]) in *.
  assert (allowed e0 OInitBias) as A1 by (split; [exact N0|]; unfold BiasInitialized; rewrite P0; cbn; rewrite B0; reflexivity).
  assert (allowed e3 (OInitState [])) as A4 by (split; [exact N0|]; unfold BiasInitialized; cbn; rewrite B1; reflexivity).
  assert (protocol e0 os) as PR.
  { unfold os. split; [exact A1|]. intros y Y. rewrite S1 in Y. injection Y as <-. split; [exact I|]. intros y Y. rewrite S2 in Y. injection Y as <-.
    split; [exact I|]. intros y Y. rewrite S3 in Y. injection Y as <-. split; [exact A4|]. intros; exact I. }
  split; [exact PR|].
  assert (est_ok [] e3) as K3.
  { destruct (run_prefix [OInitBias; OImu m1; OLeg 0 x] [OInitState []] e0 e3 K0 PR) as [K _]; [|exact K].
    rewrite run_cons, S1; cbn [bind]; rewrite run_cons, S2; cbn [bind]; rewrite run_cons, S3. reflexivity. }
  destruct (step_safe [] e3 (OInitState []) K3 A4) as [(e4 & S4 & K4)|[_ (l & L & NF)]].
  2:{ exfalso. injection L as <-. apply NF. cbn. split; [discriminate|exact I]. }
  pose proof S4 as S4'. rewrite step_init in S4'. pose proof (InitState_spec [] e3 [] (set_queue p1 [m1]) e4 K3 N0 eq_refl S4') as SP. cbn [ip_queue set_queue] in SP.
  destruct SP as (us & T & E4 & P4 & O4 & _ & _ & W2 & R5 & _ & _ & _ & T4 & _).
  destruct (step_fixed e3 (OInitState []) e4 S4) as (_ & F & _). change (e_corrs e3) with [CLeg (lc_set_queue c0 [x])] in F, T.
  destruct (e_corrs e4) as [|c4 [|? ?]] eqn:C4; try discriminate. cbn [map] in F. assert (c_fixed c4 = c_fixed (CLeg (lc_set_queue c0 [x]))) as F1 by congruence.
  destruct c4 as [c4|c4]; [discriminate|]. destruct us as [|u us]; [contradiction|]. cbn [took_all] in T. destruct T as [[T1 T2] T3]. destruct us; [|contradiction].
  destruct u as [|y u]; [congruence|]. cbn in T1. injection T1 as <- T1. destruct u; [|discriminate]. cbn in T1. symmetry in T1. apply map_eq_nil in T1.
  exists e4, c4. split; [unfold os; rewrite run_cons, S1; cbn [bind]; rewrite run_cons, S2; cbn [bind]; rewrite run_cons, S3; cbn [bind]; rewrite run_cons, S4; reflexivity|].
  split; [|split; [exact K4|]].
  - constructor; auto; [unfold imu_queue; rewrite P4; reflexivity|]. cbn in F1. injection F1. intros. congruence.
  - intros id HT. destruct (ok_on _ _ K4 E4) as (ids & C & _). rewrite C4 in C. cbn [leg_of contacts] in C. pose proof (tr_wf _ _ _ _ C) as W4.
    destruct (lc_map c4 id) as [a|] eqn:Ea; [|apply HT; exact Ea].
    apply (tr_in _ _ _ _ C) in Ea. pose proof (wfp_unique _ _ _ W2 W4). destruct ids; [destruct Ea|cbn in *; lia].
Qed.
Lemma sx_run_gen E c0 p0 p1 b0 b1 : e_enabled E = false -> e_corrs E = [CLeg c0] -> lc_queue c0 = [] -> lc_thr c0 = 3 / 10 -> e_prop E = Some p0 -> ip_queue p0 = [] -> ip_bias_init p0 = false ->
  InitImuBias p0 = Ok p1 -> ip_bias_init p1 = true -> ip_queue p1 = [] -> est_ok [exM 1] E ->
  exists e0 e1 e2 e3 c1 c2,
  protocol E (sxPre ++ ORunOnce [] :: sxAfter b0 b1) /\ est_run E sxPre = Ok e0 /\ est_step e0 (ORunOnce []) = Ok e1 /\
  est_step e1 (OLeg 0 (sxL b0 b1)) = Ok e2 /\ est_step e2 (ORunOnce []) = Ok e3 /\ e_heap e2 = e_heap e1 /\ (forall id, leg_tracked e1 id -> leg_tracked e2 id) /\
  skipn (length (e_out e0)) (e_out e1) = [e_state e1] /\ e_corrs e1 = [CLeg c1] /\ e_corrs e3 = [CLeg c2] /\
  core (Some c1) (e_heap e1) (e_state e1) /\ core (Some c2) (e_heap e3) (e_state e3) /\
  (forall id, tracked c1 id <-> (id < 2)%nat) /\ (forall id, tracked c2 id <-> (id = 0%nat /\ b0 = true \/ id = 1%nat /\ b1 = true)) /\
  (forall id, tracked c1 id -> tracked c2 id -> lc_map c2 id = lc_map c1 id) /\ (forall id, leg_tracked e1 id -> tracked c1 id) /\ (forall id, tracked c2 id -> leg_tracked e3 id).
Proof.
  intros Z1 Z2 Z3 Z4 Z5 Z6 Z7 Z8 Z9 Z10 Z11.
  assert (forall (x : rstate) l, skipn (length l) (l ++ [x]) = [x]) as SK by (intros x l; rewrite skipn_app, skipn_all, Nat.sub_diag; reflexivity).
  destruct (sx_gen E c0 p0 p1 (exM 1) (sxL false false) Z1 Z2 Z3 Z4 Z5 Z6 Z7 Z8 Z9 Z10 Z11) as (PR & e & c & ER & LG & K & NT). change (i_t (exM 1)) with 1 in LG.
  destruct (leg_run [] 1 e c (sxL true true) K LG) as (e0 & e1 & c1 & S0 & N0 & _ & _ & S1 & LG1 & K1 & T1 & _ & O1 & O0); [cbn; lra|].
  destruct (leg_run [] 1 e1 c1 (sxL b0 b1) K1 LG1) as (e2 & e3 & c2 & S2 & N2 & H2 & KT & S3 & LG3 & K3 & T3 & M3 & O3 & _); [cbn; lra|].
  exists e0, e1, e2, e3, c1, c2. split.
  { change (sxPre ++ ORunOnce [] :: sxAfter b0 b1) with ([OInitBias; OImu (exM 1); OLeg 0 (sxL false false); OInitState []] ++ [OLeg 0 (sxL true true); ORunOnce []; OLeg 0 (sxL b0 b1); ORunOnce []]).
    apply protocol_app; [exact PR|]. intros y0 Y0. rewrite ER in Y0. injection Y0 as <-. split; [exact I|]. intros y Y. rewrite S0 in Y. injection Y as <-. split; [exact N0|]. intros y Y. rewrite step_run, S1 in Y. injection Y as <-.
    split; [exact I|]. intros y Y. rewrite S2 in Y. injection Y as <-. split; [exact N2|]. intros y Y. exact I. }
  split. { change sxPre with ([OInitBias; OImu (exM 1); OLeg 0 (sxL false false); OInitState []] ++ [OLeg 0 (sxL true true)]). unfold est_run in *. rewrite foldM_app, ER. cbn [bind foldM]. rewrite S0. reflexivity. }
  split; [rewrite step_run; exact S1|]. split; [exact S2|]. split; [rewrite step_run; exact S3|]. split; [exact H2|]. split; [exact KT|].
  split; [rewrite O1, O0; apply SK|]. split; [apply LG1|]. split; [apply LG3|].
  split. { pose proof (ok_on _ _ K1 (lg_en _ _ _ LG1)) as C. rewrite (lg_c _ _ _ LG1) in C. exact C. }
  split. { pose proof (ok_on _ _ K3 (lg_en _ _ _ LG3)) as C. rewrite (lg_c _ _ _ LG3) in C. exact C. }
  assert (forall id, tracked c1 id <-> (id < 2)%nat) as TA.
  { intros id. rewrite T1. unfold tracked_after, sxL. cbn [lm_legs]. destruct id as [|[|id]]; cbn; [split; [lia|reflexivity]..|]. rewrite nth_error_nil. specialize (NT (S (S id))). split; [contradiction|lia]. }
  split; [exact TA|]. split.
  { intros id. rewrite T3. unfold tracked_after, sxL. cbn [lm_legs]. destruct id as [|[|id]]; cbn.
    - split; [auto|]. intros [[_ H]|[H _]]; [exact H|discriminate].
    - split; [auto|]. intros [[H _]|[_ H]]; [discriminate|exact H].
    - rewrite nth_error_nil, TA. split; [lia|]. intros [[H _]|[H _]]; discriminate. }
  split; [exact M3|]. split.
  - intros id (d & D1 & D2). rewrite (lg_c _ _ _ LG1) in D1. destruct D1 as [D1|[]]. injection D1 as <-. exact D2.
  - intros id H. exists c2. split; [rewrite (lg_c _ _ _ LG3); left; reflexivity|exact H].
Qed.
Lemma sx_run b0 b1 : exists e0 e1 e2 e3 c1 c2,
  protocol (build sxF) (sxPre ++ ORunOnce [] :: sxAfter b0 b1) /\ est_run (build sxF) sxPre = Ok e0 /\ est_step e0 (ORunOnce []) = Ok e1 /\
  est_step e1 (OLeg 0 (sxL b0 b1)) = Ok e2 /\ est_step e2 (ORunOnce []) = Ok e3 /\ e_heap e2 = e_heap e1 /\ (forall id, leg_tracked e1 id -> leg_tracked e2 id) /\
  skipn (length (e_out e0)) (e_out e1) = [e_state e1] /\ e_corrs e1 = [CLeg c1] /\ e_corrs e3 = [CLeg c2] /\
  core (Some c1) (e_heap e1) (e_state e1) /\ core (Some c2) (e_heap e3) (e_state e3) /\
  (forall id, tracked c1 id <-> (id < 2)%nat) /\ (forall id, tracked c2 id <-> (id = 0%nat /\ b0 = true \/ id = 1%nat /\ b1 = true)) /\
  (forall id, tracked c1 id -> tracked c2 id -> lc_map c2 id = lc_map c1 id) /\ (forall id, leg_tracked e1 id -> tracked c1 id) /\ (forall id, tracked c2 id -> leg_tracked e3 id).
Proof.
  apply (sx_run_gen (build sxF) (LeggedKinematicsCorrection [] RightInvariant no_lcfg) (ImuPropagation [] RightInvariant exI) exIp1); try reflexivity; try (rewrite build_eq; reflexivity).
  apply (build_ok sxF [exM 1] sxF_ok). exact (sx_stream b0 b1).
Qed.
Lemma two_cols c h s : core (Some c) h s -> (forall id, tracked c id <-> (id < 2)%nat) ->
  nc (sX s) = 7%nat /\ exists id p, (id < 2)%nat /\ lc_map c id = Some p /\ nth_error (scmap s) 6 = Some (Some p).
Proof.
  intros (ids & C & _) T. cbn in C. assert (length ids = 2%nat) as L.
  { destruct (lc_map c 0) as [a|] eqn:Ea; [|exfalso; apply (proj2 (T 0%nat)); [lia|exact Ea]]. destruct (lc_map c 1) as [b|] eqn:Eb; [|exfalso; apply (proj2 (T 1%nat)); [lia|exact Eb]].
    assert (a <> b) as NE by (intros <-; pose proof (tr_inj _ _ _ _ C 0%nat 1%nat a Ea Eb); discriminate).
    pose proof (tr_in _ _ _ _ C _ _ Ea) as Ia. pose proof (tr_in _ _ _ _ C _ _ Eb) as Ib.
    assert (2 <= length ids)%nat as L1.
    { change 2%nat with (length [a; b]). apply NoDup_incl_length; [constructor; [intros [H|[]]; congruence|constructor; [auto|constructor]]|]. intros y [<-|[<-|[]]]; auto. }
    assert (length ids <= 2)%nat as L2.
    { change 2%nat with (length [a; b]). apply NoDup_incl_length; [apply (tr_nodup _ _ _ _ C)|]. intros y Hy. destruct (tr_onto _ _ _ _ C y Hy) as [id Hid].
      assert (id < 2)%nat as Li by (apply T; unfold tracked; congruence). destruct id as [|[|id]]; [left|right; left|lia]; congruence. }
    lia. }
  split. { rewrite (sek_cols _ _ (wf_X _ _ (wp_wf _ _ (tr_wf _ _ _ _ C)))), L. reflexivity. }
  destruct ids as [|a [|b [|? ?]]]; try discriminate. destruct (tr_onto _ _ _ _ C b) as [id Hid]; [right; left; reflexivity|].
  exists id, b. split; [apply T; unfold tracked; congruence|]. split; [exact Hid|]. rewrite (tr_cmap _ _ _ _ C). reflexivity.
Qed.
Lemma one_col c h s id p : core (Some c) h s -> (forall i, tracked c i <-> i = id) -> lc_map c id = Some p -> nth_error h p = Some 5%Z.
Proof.
  intros (ids & C & _) T E. cbn in C. pose proof (tr_in _ _ _ _ C _ _ E) as HI. destruct (In_nth_error _ _ HI) as [k Hk].
  assert (length ids <= 1)%nat as L.
  { change 1%nat with (length [p]). apply NoDup_incl_length; [apply (tr_nodup _ _ _ _ C)|]. intros y Hy. destruct (tr_onto _ _ _ _ C y Hy) as [i Hi]. assert (i = id) as -> by (apply T; unfold tracked; congruence). left. congruence. }
  rewrite (tr_heap _ _ _ _ C _ _ Hk). assert (k < length ids)%nat by (apply nth_error_Some; congruence). replace k with 0%nat by lia. reflexivity.
Qed.
Lemma thm_snapshot_example : exists e0 e1 e2 s, let os' := sxAfter true true in
  config_ok sxF /\ imu_stream (imus (sxPre ++ ORunOnce [] :: os')) /\ protocol (build sxF) (sxPre ++ ORunOnce [] :: os') /\
  est_run (build sxF) sxPre = Ok e0 /\ est_step e0 (ORunOnce []) = Ok e1 /\ est_run e1 os' = Ok e2 /\ In s (skipn (length (e_out e0)) (e_out e1)) /\
  no_contact_lost e1 os' /\ nc (sX s) = 7%nat.
Proof.
  destruct (sx_run true true) as (e0 & e1 & e2 & e3 & c1 & c2 & PR & R0 & S1 & S2 & S3 & H2 & KT & O1 & C1 & C2 & K1 & K2 & T1 & T2 & M & TA & TB).
  exists e0, e1, e3, (e_state e1). split; [apply sxF_ok|]. split; [apply sx_stream|]. split; [exact PR|]. split; [exact R0|]. split; [exact S1|].
  split; [unfold sxAfter; rewrite run_cons, S2; cbn [bind]; rewrite run_cons, S3; reflexivity|]. split; [rewrite O1; left; reflexivity|]. split; [|apply (two_cols c1 (e_heap e1)); auto].
  intros y Y. rewrite S2 in Y. injection Y as <-. split; [right; exact KT|]. intros y Y. rewrite S3 in Y. injection Y as <-. split; [right|exact I].
  intros id HT. apply TB, T2. assert (id < 2)%nat as L.
  { destruct HT as (d & D1 & D2). apply T1, TA. exists c1. split; [rewrite C1; left; reflexivity|].
    cbn [est_step] in S2. rewrite C1 in S2. injection S2 as <-. cbn in D1. destruct D1 as [D1|[]]. injection D1 as <-. exact D2. }
  destruct id as [|[|id]]; [auto|auto|lia].
Qed.
Lemma thm_snapshot_refuted : exists f os o os' e0 e1 e2 s, config_ok f /\ imu_stream (imus (os ++ o :: os')) /\ protocol (build f) (os ++ o :: os') /\
  est_run (build f) os = Ok e0 /\ est_step e0 o = Ok e1 /\ est_run e1 os' = Ok e2 /\ In s (skipn (length (e_out e0)) (e_out e1)) /\
  ids_right (e_heap e1) s /\ ~ ids_right (e_heap e2) s.
Proof.
  assert (exists b0 b1 e0 e1 e2, protocol (build sxF) (sxPre ++ ORunOnce [] :: sxAfter b0 b1) /\ est_run (build sxF) sxPre = Ok e0 /\ est_step e0 (ORunOnce []) = Ok e1 /\
    est_run e1 (sxAfter b0 b1) = Ok e2 /\ skipn (length (e_out e0)) (e_out e1) = [e_state e1] /\ ids_right (e_heap e1) (e_state e1) /\ ~ ids_right (e_heap e2) (e_state e1)) as (b0 & b1 & e0 & e1 & e2 & PR & R0 & S1 & S2 & O1 & I1 & I2).
  2:{ exists sxF, sxPre, (ORunOnce []), (sxAfter b0 b1), e0, e1, e2, (e_state e1). split; [apply sxF_ok|]. split; [apply sx_stream|]. do 4 (split; [assumption|]). split; [rewrite O1; left; reflexivity|]. auto. }
  destruct (sx_run true true) as (e0 & e1 & _ & _ & c1 & _ & _ & R0 & S1 & _ & _ & _ & _ & _ & C1 & _ & K1 & _ & T1 & _).
  destruct (two_cols c1 (e_heap e1) (e_state e1) K1 T1) as (NC & id & p & Li & Ep & E6).
  destruct (sx_run (Nat.eqb id 0) (Nat.eqb id 1)) as (e0' & e1' & e2 & e3 & c1' & c2 & PR & R0' & S1' & S2 & S3 & H2 & KT & O1 & C1' & C2 & _ & K2 & _ & T2 & M & _).
  rewrite R0 in R0'. injection R0' as <-. rewrite S1 in S1'. injection S1' as <-. rewrite C1 in C1'. injection C1' as <-.
  exists (Nat.eqb id 0), (Nat.eqb id 1), e0, e1, e3. split; [exact PR|]. split; [exact R0|]. split; [exact S1|].
  split; [unfold sxAfter; rewrite run_cons, S2; cbn [bind]; rewrite run_cons, S3; reflexivity|]. split; [exact O1|]. split; [apply (core_right _ _ _ K1)|].
  intros IR. destruct (IR 6%nat) as (q & Q1 & Q2); [lia|]. rewrite E6 in Q1. injection Q1 as <-.
  assert (forall i, tracked c2 i <-> i = id) as T3.
  { intros i. rewrite T2. rewrite !Nat.eqb_eq. split; [lia|]. intros ->. destruct id as [|[|id]]; [auto|auto|lia]. }
  assert (lc_map c2 id = Some p) as E2 by (rewrite M, Ep; [reflexivity|apply T1; exact Li|apply T3; reflexivity]).
  rewrite (one_col c2 (e_heap e3) (e_state e3) id p K2 T3 E2) in Q2. discriminate.
Qed.
