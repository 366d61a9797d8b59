(** C70: a concrete history, and a tilted mounting for which the calibration depends on the heading. *)
From Coq Require Import Reals ZArith List Bool Arith Lia Lra.
From Verif Require Import Res Vec3 Mat MatInv Psd Spec LieGroup LieSO3 LieSEK RobotState StateProofs Inekf SpecFilter InekfThms Blk Imu Propagation SpecProp
  PropagationThms ImuRest ImuThms ImuNeg Queue VelCorr LegCorr SpecCorr VelThms PsdBlk LegThms LegUpd LegHist Estimator SpecEst EstInv EstSafe EstPub EstHist EstTime EstEx
  ConvFilter SpecConv SpecClear ClearShift ClearEst ClearSlip ClearThms ClearEx SpecYaw.
Import ListNotations.
Local Open Scope R_scope.

Definition ywQ : quat := mkQ (3 / 5) 0 0 (4 / 5).
Lemma ywQ_heading : heading ywQ. Proof. repeat split; cbn; lra. Qed.
(** calibration with one sample, mounting q0, orientation taken from the IMU *)
Definition ywI (q0 : quat) : imu_cfg := mkICfg (Some true) (Some 1%Z) (Some true) (Some q0) None None None None None None None None.
Definition ywF (q0 : quat) : config := mkCfg RightInvariant exE (ywI q0) [].
Definition ywM (t : R) (q : quat) : imu := mkImu t q vzero (mkV 0 0 9).
Definition ywOps (q : quat) : list op := [OImu (ywM 1 q); OInitBias; OInitBias; OImu (ywM 2 q); OInitState []].
Lemma ywF_ok q0 : config_ok (ywF q0). Proof. split; [intros _; cbn; lia|]. split; [constructor|cbn; lia]. Qed.
Definition ywP0 q0 : imu_prop := ImuPropagation [] RightInvariant (ywI q0).
Definition ywP1 q0 q := set_queue (ywP0 q0) [ywM 1 q].
Definition ywP2 q0 q := set_prev (set_vec (set_queue (ywP0 q0) []) [calib_sample (ywP0 q0) (ywM 1 q)]) (ywM 1 q).
Definition ywP3 q0 q := set_bias (ywP2 q0 q) ((1 / 1) *s (vzero +v fst (calib_sample (ywP0 q0) (ywM 1 q)))) ((1 / 1) *s (vzero +v snd (calib_sample (ywP0 q0) (ywM 1 q)))).
Lemma yw_stream q : qnorm2 q = 1 -> imu_stream (imus (ywOps q)).
Proof. intros H. split; [repeat constructor; exact H|]. cbn. lra. Qed.
Lemma step_bias e ip ip' : e_prop e = Some ip -> InitImuBias ip = Ok ip' -> est_step e OInitBias = Ok (e_set_prop e ip').
Proof. intros H E. cbn [est_step]. unfold InitBias. rewrite H. cbn [of_opt bind]. rewrite E. reflexivity. Qed.
Lemma step_push e ip m : e_prop e = Some ip -> est_step e (OImu m) = Ok (e_set_prop e (set_queue ip (ip_queue ip ++ [m]))).
Proof. intros H. cbn [est_step]. rewrite H. reflexivity. Qed.
Lemma yw_b1 q0 q : InitImuBias (ywP1 q0 q) = Ok (ywP2 q0 q).
Proof. unfold InitImuBias. change (ip_static (ywP1 q0 q)) with true. change (ip_vec (ywP1 q0 q)) with (@nil (V3 * V3)). change (ip_queue (ywP1 q0 q)) with [ywM 1 q]. change (size_lt _ _) with true. reflexivity. Qed.
Lemma yw_b2 q0 q : InitImuBias (ywP2 q0 q) = Ok (ywP3 q0 q).
Proof.
  unfold InitImuBias. change (ip_static (ywP2 q0 q)) with true. change (ip_vec (ywP2 q0 q)) with [calib_sample (ywP0 q0) (ywM 1 q)]. change (size_lt _ _) with false. unfold ywP3.
  generalize (calib_sample (ywP0 q0) (ywM 1 q)). intros c. cbn [negb fold_left length Nat.eqb check bind INR]. reflexivity.
Qed.
Lemma set_prop_prop e ip : e_prop (e_set_prop e ip) = Some ip. Proof. reflexivity. Qed.
Lemma set_prop_twice e a b : e_set_prop (e_set_prop e a) b = e_set_prop e b. Proof. reflexivity. Qed.
Lemma yw_gen e0 m1 m2 p0 p1 p2 : e_enabled e0 = false -> e_corrs e0 = [] -> e_out e0 = [] -> e_prop e0 = Some p0 -> ip_queue p0 = [] -> ip_bias_init p0 = false ->
  InitImuBias (set_queue p0 [m1]) = Ok p1 -> InitImuBias p1 = Ok p2 -> ip_bias_init p1 = false -> ip_bias_init p2 = true -> ip_queue p2 = [] -> est_ok [m1; m2] e0 ->
  let os := [OImu m1; OInitBias; OInitBias; OImu m2; OInitState []] in
  protocol e0 os /\ exists s, published any_op e0 os = [s] /\ rot (sX s) = (if ip_use_ori p2 then toRotationMatrix (i_q m2) else mid) /\ abias s = ip_ba0 p2.
Proof.
  intros N0 C0 O0 P0 Q0 B0 I1 I2 B1 B2 Q2 K0 os.
  assert (est_step e0 (OImu m1) = Ok (e_set_prop e0 (set_queue p0 [m1]))) as S1 by (rewrite (step_push e0 p0 m1 P0), Q0; reflexivity).
  assert (est_step (e_set_prop e0 (set_queue p0 [m1])) OInitBias = Ok (e_set_prop e0 p1)) as S2 by (rewrite (step_bias _ _ _ (set_prop_prop _ _) I1), set_prop_twice; reflexivity).
  assert (est_step (e_set_prop e0 p1) OInitBias = Ok (e_set_prop e0 p2)) as S3 by (rewrite (step_bias _ _ _ (set_prop_prop _ _) I2), set_prop_twice; reflexivity).
  assert (est_step (e_set_prop e0 p2) (OImu m2) = Ok (e_set_prop e0 (set_queue p2 [m2]))) as S4 by (rewrite (step_push _ _ m2 (set_prop_prop _ _)), set_prop_twice, Q2; reflexivity).
  assert (allowed (e_set_prop e0 (set_queue p0 [m1])) OInitBias) as A2 by (split; [exact N0|]; unfold BiasInitialized; rewrite set_prop_prop; cbn; rewrite B0; reflexivity).
  assert (allowed (e_set_prop e0 p1) OInitBias) as A3 by (split; [exact N0|]; unfold BiasInitialized; rewrite set_prop_prop; cbn; rewrite B1; reflexivity).
  assert (allowed (e_set_prop e0 (set_queue p2 [m2])) (OInitState [])) as A5 by (split; [exact N0|]; unfold BiasInitialized; rewrite set_prop_prop; cbn; rewrite B2; reflexivity).
  assert (protocol e0 os) as PR.
  { unfold os. split; [exact I|]. intros x X. rewrite S1 in X. injection X as <-. split; [exact A2|]. intros x X. rewrite S2 in X. injection X as <-.
    split; [exact A3|]. intros x X. rewrite S3 in X. injection X as <-. split; [exact I|]. intros x X. rewrite S4 in X. injection X as <-. split; [exact A5|]. intros; exact I. }
  split; [exact PR|]. set (e4 := e_set_prop e0 (set_queue p2 [m2])) in *.
  assert (est_ok [] e4) as K.
  { destruct (run_prefix [OImu m1; OInitBias; OInitBias; OImu m2] [OInitState []] e0 e4 K0 PR) as [K _]; [|exact K].
    rewrite run_cons, S1; cbn [bind]; rewrite run_cons, S2; cbn [bind]; rewrite run_cons, S3; cbn [bind]; rewrite run_cons, S4. reflexivity. }
  destruct (step_safe [] e4 (OInitState []) K A5) as [(e5 & S5 & _)|[_ (l & L & NF)]].
  2:{ exfalso. injection L as <-. apply NF. cbn [e4 e_corrs e_set_prop e_set]. rewrite C0. exact I. }
  pose proof S5 as S5'. cbn [est_step] in S5'. pose proof (InitState_spec [] e4 [] (set_queue p2 [m2]) e5 K N0 (set_prop_prop _ _) S5') as SP. cbn [ip_queue set_queue] in SP.
  destruct SP as (us & _ & _ & _ & O5 & _ & _ & _ & R5 & _ & _ & B5 & _). exists (e_state e5). split; [|split; [exact R5|exact B5]].
  unfold os. cbn [published]. rewrite S1, S2, S3, S4, S5. cbn [any_op]. rewrite O5. cbn [e4 e_out e_set_prop e_set]. rewrite O0. reflexivity.
Qed.
Lemma yw_run q0 q : qnorm2 q = 1 -> protocol (build (ywF q0)) (ywOps q) /\
  exists s, published any_op (build (ywF q0)) (ywOps q) = [s] /\ rot (sX s) = toRotationMatrix q /\ abias s = ip_ba0 (ywP3 q0 q).
Proof.
  intros Hq. pose proof (build_ok (ywF q0) _ (ywF_ok q0) (yw_stream q Hq)) as K0.
  apply (yw_gen (build (ywF q0)) (ywM 1 q) (ywM 2 q) (ywP0 q0) (ywP2 q0 q) (ywP3 q0 q)); auto using yw_b1, yw_b2; rewrite build_eq; reflexivity.
Qed.
Lemma yw_turn q p : map (turn_op q) (ywOps p) = ywOps (qmul q p). Proof. reflexivity. Qed.

(** a mounting tilted about the x axis *)
Definition ywTilt : quat := mkQ (3 / 5) (4 / 5) 0 0.
Definition qId : quat := mkQ 1 0 0 0.
Lemma thm_turn_refuted : exists f q os, config_ok f /\ imu_stream (imus os) /\ protocol (build f) os /\ dflt (c_use_ori (f_imu f)) false = true /\
  heading q /\ protocol (build f) (map (turn_op q) os) /\
  published any_op (build f) (map (turn_op q) os) <> map (turned (f_err f) (toRotationMatrix q)) (published any_op (build f) os).
Proof.
  exists (ywF ywTilt), (mkQ 0 0 0 1), (ywOps qId).
  destruct (yw_run ywTilt qId) as (P1 & s1 & E1 & _ & B1); [unfold qnorm2, qId; cbn; ring|].
  destruct (yw_run ywTilt (qmul (mkQ 0 0 0 1) qId)) as (P2 & s2 & E2 & _ & B2); [unfold qnorm2, qmul, qId; cbn; ring|].
  split; [apply ywF_ok|]. split; [apply yw_stream; unfold qnorm2, qId; cbn; ring|]. split; [exact P1|]. split; [reflexivity|]. split; [repeat split; cbn; ring|]. rewrite yw_turn. split; [exact P2|].
  rewrite E1, E2. cbn [map]. intros H. assert (abias s2 = abias s1) as HB.
  { assert (s2 = turned (f_err (ywF ywTilt)) (toRotationMatrix (mkQ 0 0 0 1)) s1) as -> by congruence. reflexivity. }
  rewrite B1, B2 in HB. apply (f_equal v1) in HB. revert HB. unfold ywP3, calib_sample, ywTilt, qId, qmul, g_, toRotationMatrix. cbn. lra.
Qed.
