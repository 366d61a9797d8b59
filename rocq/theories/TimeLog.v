(** C79: the log lines that are written depend on the origin of the clock. *)
From Coq Require Import Reals ZArith List Bool Lia Lra.
From Verif Require Import Res Vec3 Mat RobotState Imu Propagation VelCorr LegCorr Estimator SpecEst EstInv EstSafe EstPub EstEx ObsThms ClearEx SpecTime.
Import ListNotations.
Local Open Scope R_scope.

Definition tlM (d : R) : imu := imu_later d (exM 1).
Definition tlOps : list op := OInitBias :: bootOps (exM 1) (exM 1).
Lemma tl_stream d : imu_stream [tlM d; tlM d].
Proof. split; [apply Forall_forall; intros m [<-|[<-|[]]]; unfold SpecProp.qnorm2; cbn; ring|]. cbn. lra. Qed.
Lemma tl_ok d : est_ok [tlM d; tlM d] clE1.
Proof.
  destruct (step_safe [tlM d; tlM d] (build clF) OInitBias (build_ok clF _ clF_ok (tl_stream d)) clA1) as [(x & X1 & X2)|[_ (l & L & _)]]; [|discriminate].
  rewrite clS1 in X1. injection X1 as <-. exact X2.
Qed.
(** one line if the clock is past the period by the first sample, none before *)
Lemma tl_run d : exists e, reachable clF (map (op_later d) tlOps) e /\
  (1 / 10 <= 1 + d -> length (e_lines e) = 1%nat) /\ (1 + d < 1 / 10 -> e_lines e = []).
Proof.
  assert (map (op_later d) tlOps = OInitBias :: bootOps (tlM d) (tlM d)) as EO by reflexivity. rewrite EO.
  destruct (boot clE1 exIp1 (tlM d) (tlM d) [] (tl_ok d)) as (e & s1 & s2 & ls & B1 & B2 & B3 & B4 & B5 & B6 & B7 & _ & B9 & B10 & B11 & B12 & B13); try reflexivity; try (unfold clE1; rewrite build_eq; reflexivity).
  assert (e_rate clE1 = 10 /\ e_lastpub clE1 = 0 /\ e_lines clE1 = []) as (RT & LP & LN) by (unfold clE1; rewrite build_eq; repeat split; reflexivity). rewrite RT, LP in *. rewrite LN in B13. cbn [app] in B13.
  change (i_t (tlM d)) with (1 + d) in *. exists e. split; [|split].
  - split; [exact clF_ok|]. split; [exact (tl_stream d)|]. split.
    + split; [exact clA1|]. intros e' E. rewrite clS1 in E. injection E as <-. exact B1.
    + rewrite run_cons, clS1. exact B2.
  - intros H. rewrite B13. apply B11. unfold log_due. destruct (Req_EM_T 10 0); [lra|]. destruct (Rle_dec (1 / 10) (1 + d - 0)); [reflexivity|lra].
  - intros H. rewrite B13. apply B12. unfold log_due. destruct (Req_EM_T 10 0); [reflexivity|]. destruct (Rle_dec (1 / 10) (1 + d - 0)); [lra|reflexivity].
Qed.
Lemma thm_log_origin : exists f os d e e', reachable f os e /\ reachable f (map (op_later d) os) e' /\ length (e_lines e) = 1%nat /\ e_lines e' = [].
Proof.
  destruct (tl_run 0) as (e & R & L & _). destruct (tl_run (-1)) as (e' & R' & _ & L').
  exists clF, (map (op_later 0) tlOps), (-1), e, e'. split; [exact R|]. split; [|split; [apply L; lra|apply L'; lra]].
  assert (map (op_later (-1)) (map (op_later 0) tlOps) = map (op_later (-1)) tlOps) as ->; [|exact R'].
  unfold tlOps, bootOps. cbn [map op_later]. assert (imu_later (-1) (imu_later 0 (exM 1)) = imu_later (-1) (exM 1)) as ->; [|reflexivity].
  unfold imu_later. cbn [i_t i_q i_w i_a]. f_equal. ring.
Qed.
