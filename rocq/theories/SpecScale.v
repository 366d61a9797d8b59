(** Specification vocabulary for C87: only the ratios of the noise parameters matter. *)
From Coq Require Import Reals ZArith List Bool Arith.
From Verif Require Import Res Vec3 Mat RobotState Imu Propagation VelCorr LegCorr Estimator SpecEst.
Import ListNotations.
Local Open Scope R_scope.

(** the same covariance in another unit: every entry that does not concern the biases (the
    last six coordinates) is multiplied by c *)
Definition scaled_cov (c : R) (P P' : mat) : Prop :=
  nr P' = nr P /\ nc P' = nc P /\
  forall i j, (i < nr P - 6)%nat -> (j < nc P - 6)%nat -> ent P' i j = c * ent P i j.
(** the same state (pose, velocity, contacts, biases, ids, times, flags), with the
    covariance and the stored contact noise in another unit *)
Definition scaled (c : R) (s s' : rstate) : Prop :=
  scaled_cov c (sP s) (sP s') /\ s' = set_P (set_Qc s (c *S sQc s)) (sP s').

(** f' is f with every standard deviation multiplied by k, defaults included; the bias
    noises are arbitrary (with the bias estimation off they are not used) *)
Definition louder_std (k : R) (d : R) (o o' : option R) : Prop := dflt o' d = k * dflt o d.
Definition louder_imu (k : R) (a b : imu_cfg) : Prop :=
  c_static b = c_static a /\ c_init_size b = c_init_size a /\ c_use_ori b = c_use_ori a /\ c_quat b = c_quat a /\
  louder_std k (1 / 10) (c_gyro_std a) (c_gyro_std b) /\ louder_std k (1 / 10) (c_accel_std a) (c_accel_std b) /\
  c_bg b = c_bg a /\ c_ba b = c_ba a /\ c_enable b = c_enable a /\ c_trans b = c_trans a.
Definition louder_corr (k : R) (a b : corr_cfg) : Prop :=
  match a, b with
  | GVel a, GVel b => louder_std k (1 / 10) (g_std a) (g_std b) /\ g_thr b = g_thr a /\ g_quat b = g_quat a /\ g_scale b = g_scale a
  | GLeg a, GLeg b =>
    louder_std k (1 / 100) (h_enc a) (h_enc b) /\ louder_std k (5 / 100) (h_kin a) (h_kin b) /\
    louder_std k (1 / 10) (h_contact a) (h_contact b) /\ h_thr b = h_thr a
  | _, _ => False
  end.
Definition louder_est (k : R) (a b : est_cfg) : Prop :=
  k_logger b = k_logger a /\ k_pose_file b = k_pose_file a /\ k_vel_file b = k_vel_file a /\ k_rate b = k_rate a /\
  sq_or (k_rot b) (3 / 100) = k * k * sq_or (k_rot a) (3 / 100) /\
  sq_or (k_vel b) (1 / 100) = k * k * sq_or (k_vel a) (1 / 100) /\
  sq_or (k_pos b) (1 / 100000) = k * k * sq_or (k_pos a) (1 / 100000).
Definition louder (k : R) (f f' : config) : Prop :=
  f_err f' = f_err f /\ louder_est k (f_est f) (f_est f') /\ louder_imu k (f_imu f) (f_imu f') /\
  Forall2 (louder_corr k) (f_corrs f) (f_corrs f').

(** everything a user can see of the two estimators; before the initialisation (and after a
    clear) there is no estimate yet and the two states are the same *)
Record scaled_output (c : R) (a b : est) : Prop := {
  sc_state : if e_enabled a then scaled c (e_state a) (e_state b) else e_state b = e_state a;
  sc_enabled : e_enabled b = e_enabled a;
  sc_out : Forall2 (scaled c) (e_out a) (e_out b);
  sc_logq : Forall2 (scaled c) (e_logq a) (e_logq b);
  sc_lines : e_lines b = e_lines a;
  sc_opened : e_opened b = e_opened a }.
