(** Properties C70, C71: the heading of the world and the orientation reported by the IMU. *)
From Coq Require Import Reals ZArith List Bool Lia Lra.
From Verif Require Import Res Vec3 Mat Spec LieGroup RobotState Inekf SpecFilter Imu Propagation VelCorr LegCorr SpecProp Estimator SpecEst SpecConv SpecYaw YawRun YawEx OriRun EstEx.
Import ListNotations.
Local Open Scope R_scope.

(** C70.  Proved: for every configuration that takes its orientation from the IMU and whose
    calibration (if any) sees an IMU mounted with a rotation about the vertical, in both error
    conventions, with any corrections, for every legal history.  Missing: calibration with a
    tilted mounting, for which the claim is false. *)
Theorem C70_heading_partial : forall f q os, config_ok f -> imu_stream (imus os) -> protocol (build f) os -> uses_heading f -> heading q ->
  let R := toRotationMatrix q in let os' := map (turn_op q) os in
  imu_stream (imus os') /\ protocol (build f) os' /\
  published any_op (build f) os' = map (turned (f_err f) R) (published any_op (build f) os) /\
  match est_run (build f) os with
  | Ok a => exists b, est_run (build f) os' = Ok b /\ turned_output (f_err f) R a b
  | Fail x => est_run (build f) os' = Fail x
  end.
Proof. exact thm_turn. Qed.
Print Assumptions C70_heading_partial.
(** calibration with an upright IMU, then initialisation, seen from a world turned by about 106 degrees *)
Example C70_example : config_ok (ywF qId) /\ imu_stream (imus (ywOps qId)) /\ protocol (build (ywF qId)) (ywOps qId) /\ uses_heading (ywF qId) /\ heading ywQ /\
  exists s, published any_op (build (ywF qId)) (ywOps qId) = [s] /\ rot (sX s) = mid.
Proof.
  destruct (yw_run qId qId) as (P & s & E & Er & _); [unfold qnorm2, qId; cbn; ring|]. split; [apply ywF_ok|]. split; [apply yw_stream; unfold qnorm2, qId; cbn; ring|]. split; [exact P|].
  split; [split; [reflexivity|right; repeat split; cbn; ring]|]. split; [apply ywQ_heading|]. exists s. split; [exact E|]. rewrite Er. unfold toRotationMatrix, qId, mid. cbn. f_equal; ring.
Qed.
(** With a tilted mounting the calibration multiplies the orientation by the mounting rotation
    on the wrong side, and the accelerometer bias it finds depends on the heading. *)
Theorem C70_heading_refuted : exists f q os, config_ok f /\ imu_stream (imus os) /\ protocol (build f) os /\ dflt (c_use_ori (f_imu f)) false = true /\
  heading q /\ protocol (build f) (map (turn_op q) os) /\
  published any_op (build f) (map (turn_op q) os) <> map (turned (f_err f) (toRotationMatrix q)) (published any_op (build f) os).
Proof. exact thm_turn_refuted. Qed.
Print Assumptions C70_heading_refuted.

(** C71, for every history whatsoever (legal or not). *)
Theorem C71_orientation_ignored : forall f os os', ignores_orientation f -> Forall2 same_but_orientation os os' ->
  published any_op (build f) os' = published any_op (build f) os /\
  match est_run (build f) os with
  | Ok a => exists b, est_run (build f) os' = Ok b /\ same_everything a b
  | Fail x => est_run (build f) os' = Fail x
  end.
Proof. exact thm_orientation. Qed.
Print Assumptions C71_orientation_ignored.
Definition tilt_op (o : op) : op := match o with OImu m => OImu (mkImu (i_t m) (mkQ 0 1 0 0) (i_w m) (i_a m)) | _ => o end.
Example C71_example : ignores_orientation exF /\ protocol (build exF) exOps /\ (exists e, est_run (build exF) exOps = Ok e) /\
  exists os', Forall2 same_but_orientation exOps os' /\ os' <> exOps.
Proof.
  split; [reflexivity|]. split; [exact exProtocol|]. split.
  { destruct ex_states as (e4 & e5 & e6 & e7 & e8 & R3 & S4 & S5 & S6 & S7 & S8 & _). exists e8.
    cbn [exOps exPre app]. unfold est_run. cbn [foldM]. rewrite exS1. cbn [bind]. rewrite exS2. cbn [bind]. rewrite exS3. cbn [bind]. rewrite step_init, S4. cbn [bind].
    rewrite S5. cbn [bind]. rewrite step_run, S6. cbn [bind]. rewrite S7. cbn [bind]. rewrite step_run, S8. reflexivity. }
  exists (map tilt_op exOps). split.
  - induction exOps as [|o l IH]; cbn [map]; constructor; auto. destruct o; cbn; auto.
  - intros H. apply (f_equal (fun l => nth 1 l OClear)) in H. cbn in H. injection H. intros. lra.
Qed.
