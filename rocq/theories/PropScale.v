(** Property C87: only the ratios of the noise parameters matter. *)
From Coq Require Import Reals ZArith List Bool Lia Lra.
From Verif Require Import Res Vec3 Mat Spec RobotState Inekf SpecFilter Imu Propagation VelCorr LegCorr VelThms Estimator SpecEst SpecConv EstEx SpecScale ScaleEst.
Import ListNotations.
Local Open Scope R_scope.

(** C87: two estimators that differ only in the noise parameters, those of the second being k
    times those of the first (bias estimation off; the bias noises are arbitrary).  Fed with
    the same history, the second follows the same protocol, fails exactly when and how the
    first does, publishes the same estimates in the same order with k*k times the covariance,
    and writes the same log lines to the same files. *)
Theorem C87_noise_unit : forall f f' os k, config_ok f -> imu_stream (imus os) -> protocol (build f) os ->
  dflt (c_enable (f_imu f)) false = false -> k <> 0 -> louder k f f' ->
  protocol (build f') os /\ Forall2 (scaled (k * k)) (published any_op (build f) os) (published any_op (build f') os) /\
  match est_run (build f) os, est_run (build f') os with
  | Ok a, Ok b => scaled_output (k * k) a b
  | Fail a, Fail b => a = b
  | _, _ => False
  end.
Proof. exact thm_scale. Qed.
Print Assumptions C87_noise_unit.

(** a history with initialisation, two IMU samples and a velocity correction, and the same
    configuration with ten times the noise *)
Definition louder_ex : config :=
  mkCfg RightInvariant (mkECfg true (Some (10 * sqrt (3 / 100))) (Some 1) (Some (10 * sqrt (1 / 100000))) None None None)
    (mkICfg (Some false) None None None (Some 1) (Some 1) (Some 7) None None None None None) [GVel (mkVCfg (Some 1) None None None)].
Example C87_example : config_ok exF /\ imu_stream (imus exOps) /\ protocol (build exF) exOps /\ dflt (c_enable (f_imu exF)) false = false /\
  (10 <> 0) /\ louder 10 exF louder_ex /\ exists e, est_run (build exF) exOps = Ok e.
Proof.
  split; [exact exF_ok|]. split; [exact exStream|]. split; [exact exProtocol|]. split; [reflexivity|]. split; [lra|]. split.
  - assert (forall x, 0 <= x -> (10 * sqrt x) ^ 2 = 10 * 10 * x) as HS.
    { intros x Hx. replace ((10 * sqrt x) ^ 2) with (10 * 10 * (sqrt x * sqrt x)) by ring. rewrite sqrt_sqrt by auto. reflexivity. }
    split; [reflexivity|]. split.
    + unfold louder_est. cbn [louder_ex exF f_est exE k_logger k_pose_file k_vel_file k_rate k_rot k_vel k_pos sq_or]. rewrite !HS by lra.
      do 5 (split; [lra || reflexivity|]). split; lra.
    + split.
      * unfold louder_imu, louder_std. cbn. do 4 (split; [reflexivity|]). do 2 (split; [lra|]). auto.
      * constructor; [|constructor]. cbn. unfold louder_std. cbn. split; [lra|]. auto.
  - destruct ex_states as (e4 & e5 & e6 & e7 & e8 & R3 & S4 & S5 & S6 & S7 & S8 & _). exists e8.
    cbn [exOps exPre app]. unfold est_run. cbn [foldM]. rewrite exS1. cbn [bind]. rewrite exS2. cbn [bind]. rewrite exS3. cbn [bind]. rewrite step_init, S4. cbn [bind].
    rewrite S5. cbn [bind]. rewrite step_run, S6. cbn [bind]. rewrite S7. cbn [bind]. rewrite step_run, S8. reflexivity.
Qed.
