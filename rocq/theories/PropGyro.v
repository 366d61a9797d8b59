(** Properties C37, C38, C59-C64: the angular-velocity filter. *)
From Coq Require Import Reals ZArith List Bool Arith Lia Lra.
From Verif Require Import Res Vec3 Mat MatInv Psd Spec LieGroup RobotState Imu Propagation ImuFilter SpecGyro GyroThms GyroHist GyroEx GyroMore GyroFlat GyroLive.
Import ListNotations.
Local Open Scope R_scope.

(** C37: whatever the constructor, the sensors added and the history (samples, iterations,
    clear() at any time), estimate and covariance keep their sizes, the covariance stays PSD,
    and no run fails on a singular innovation covariance or a size mismatch; ... *)
Theorem C37_covariance_psd : forall im av size c l os, gcfg_ok c ->
  match gf_run (gf_setup (gf_make im av size c) l) os with
  | Ok g => nr (gf_x g) = 6%nat /\ nc (gf_x g) = 1%nat /\ nr (gf_P g) = 6%nat /\ psd (gf_P g)
  | Fail er => er <> SingularInverse /\ er <> EigenAssert
  end.
Proof. exact thm_gyro_psd. Qed.
Print Assumptions C37_covariance_psd.
(** ... and in every state reached each correction is total, is the Kalman update of the
    observation of the rate (plus bias for an IMU), and does not increase the covariance. *)
Theorem C37_correction_is_kalman_and_decreases : forall im av size c l os g, gcfg_ok c -> gf_run (gf_setup (gf_make im av size c) l) os = Ok g ->
  (forall m, exists g' out, AngVelFilterCorrectIMU g m = Ok (g', out) /\ loewner_le (gf_P g') (gf_P g) /\
     kalman_update (gf_x g) (gf_P g) (gf_Hi g) (ofM3 (gf_Ri g)) (i_w m) (gf_x g') (gf_P g')) /\
  (forall m a, exists g' out, AngVelFilterCorrectEncoder g m a = Ok (g', out) /\ loewner_le (gf_P g') (gf_P g) /\
     kalman_update (gf_x g) (gf_P g) (gf_He g) (ofM3 (gf_Re g)) (gf_Rinv g *v av_w a) (gf_x g') (gf_P g')).
Proof. exact thm_gyro_update. Qed.
Print Assumptions C37_correction_is_kalman_and_decreases.
Example C37_example : gcfg_ok no_gcfg /\ exists g, gf_run (gf_setup (gf_make None None (Some 250%Z) no_gcfg) [AImu; AAv]) [GRun; GImu (at_time 1)] = Ok g.
Proof. split; [exact no_gcfg_ok|]. exists ex_g1. exact ex_run1. Qed.

(** C38 (partial: not for several IMUs): one iteration uses at most one gyro sample and one
    IMU or encoder sample, the earlier of the two fronts, and any result is the current
    estimate with the stamp of the sample used; ... *)
Theorem C38_one_iteration_partial : forall g g', gf_init g = true -> gf_cm g <> MULTI_IMU -> ImuFilter_RunOnce g false = Ok g' -> turn g g'.
Proof. exact thm_turn. Qed.
Print Assumptions C38_one_iteration_partial.
(** ... over a whole history each buffer's samples are used in order and once, with at most
    one result each, in the order of use; ... *)
Theorem C38_history_partial : forall os g g', gf_init g = true -> gf_cm g <> MULTI_IMU -> forallb no_gclear os = true -> forallb no_gpop os = true ->
  gf_run g os = Ok g' -> hstep g g' os.
Proof. exact thm_hist. Qed.
Print Assumptions C38_history_partial.
(** ... and with an encoder each iteration takes a waiting sample, so nothing blocks. *)
Theorem C38_no_blocking_with_encoder_partial : forall g g', gf_init g = true -> gf_cm g = SINGLE_IMU_PLUS_ANG_VEL \/ gf_cm g = ANG_VEL -> ImuFilter_RunOnce g false = Ok g' ->
  (gf_cm g = ANG_VEL -> length (q_of (gf_av g')) = pred (length (q_of (gf_av g)))) /\
  (gf_cm g = SINGLE_IMU_PLUS_ANG_VEL ->
   (length (q_of (gf_imu g')) + length (q_of (gf_av g')) = pred (length (q_of (gf_imu g)) + length (q_of (gf_av g))))%nat).
Proof. exact thm_progress. Qed.
Print Assumptions C38_no_blocking_with_encoder_partial.
Example C38_example : exists g g', gf_run (gf_setup (ImuAngVelEKF_config no_gcfg) [AImu; AAv]) [GRun; GImu (at_time 1)] = Ok g /\
  gf_init g = true /\ gf_cm g = SINGLE_IMU_PLUS_ANG_VEL /\ gf_run g [GRun] = Ok g' /\ gf_imu g' = Some [].
Proof. exists ex_g1. destruct ex_run2 as (g' & A & B). exists g'. split; [exact ex_run1|]. split; [reflexivity|]. split; [reflexivity|]. split; [exact A|exact B]. Qed.
(** C38 refuted as stated: with one IMU and gyro propagation a sample older than the threshold
    is never removed: whatever follows there is no further output; ... *)
Theorem C38_stale_blocks_refuted : forall os, (forall o, In o os -> match o with GRun | GImu _ => True | GGyro x => 10 <= i_t x | _ => False end) ->
  exists g, gf_run (gf_setup (ImuAngVelEKF_config no_gcfg) [AGyro; AImu]) ([GRun; GGyro (at_time 10); GRun; GImu (at_time 1)] ++ os) = Ok g /\ gf_out g = [].
Proof. exact thm_stale. Qed.
Print Assumptions C38_stale_blocks_refuted.
(** ... and with several IMUs a sample too old to be used repeats the previous sensor's result. *)
Theorem C38_duplicate_output_refuted : exists g f, gf_run (gf_setup (ImuAngVelEKF_config no_gcfg) [AGyro; AImu; AImu; AImu])
  [GRun; GGyro (at_time 10); GRun; GImuN 0 (at_time 10); GImuN 1 (at_time 1); GRun] = Ok g /\ gf_out g = [f; f] /\ i_t f = 10.
Proof. exact thm_multi_dup. Qed.
Print Assumptions C38_duplicate_output_refuted.

(** C59 refuted: an IMU without gyro propagation never yields a result (for stamps after -1), ... *)
Theorem C59_single_imu_silent_refuted : forall c, gcfg_ok c -> q_static c <> Some true -> forall os,
  (forall o, In o os -> match o with GRun => True | GImu x => -1 < i_t x | _ => False end) ->
  exists g, gf_run (gf_setup (ImuAngVelEKF_config c) [AImu]) os = Ok g /\ gf_out g = [].
Proof. exact thm_single_no_gyro. Qed.
Print Assumptions C59_single_imu_silent_refuted.
(** ... nor does an encoder alone, ... *)
Theorem C59_encoder_silent_refuted : forall c, gcfg_ok c -> q_static c <> Some true -> forall os,
  (forall o, In o os -> match o with GRun | GAv _ => True | _ => False end) ->
  exists g, gf_run (gf_setup (ImuAngVelEKF_config c) [AAv]) os = Ok g /\ gf_out g = [].
Proof. exact thm_av_no_imu. Qed.
Print Assumptions C59_encoder_silent_refuted.
(** ... nor do the samples of the first of several IMUs; ... *)
Theorem C59_first_of_many_ignored_refuted : forall c, gcfg_ok c -> q_static c <> Some true -> forall os,
  (forall o, In o os -> match o with GRun | GImu _ => True | _ => False end) ->
  exists g, gf_run (gf_setup (ImuAngVelEKF_config c) [AImu; AImu]) os = Ok g /\ gf_out g = [].
Proof. exact thm_multi_first_ignored. Qed.
Print Assumptions C59_first_of_many_ignored_refuted.
(** ... an encoder alone with static bias calibration dereferences a null buffer, ... *)
Theorem C59_encoder_calibration_refuted : forall c z, q_static c = Some true -> q_size c = Some z -> (z <> 0)%Z ->
  gf_run (gf_setup (ImuAngVelEKF_config c) [AAv]) [GRun] = Fail NullDeref.
Proof. exact thm_av_static. Qed.
Print Assumptions C59_encoder_calibration_refuted.
(** ... and the constructor taking buffers leaves the calibration length unset. *)
Theorem C59_buffer_constructor_refuted : forall c qi qa, gf_run (ImuAngVelEKF_buffers qi qa c) [GRun] = Fail BadRead.
Proof. exact thm_buffers_ctor. Qed.
Print Assumptions C59_buffer_constructor_refuted.
(** the arrangement that works: IMU plus encoder, first sample *)
Theorem C59_imu_plus_encoder_partial : forall m, exists g o, gf_run (gf_setup (ImuAngVelEKF_config flat_gcfg) [AImu; AAv]) [GRun; GImu m; GRun] = Ok g /\ gf_out g = [o].
Proof. intros m. destruct (thm_flat_true m) as (g & o & A & B & _). eauto. Qed.
Print Assumptions C59_imu_plus_encoder_partial.
Example C59_example : gcfg_ok no_gcfg /\ q_static no_gcfg <> Some true.
Proof. split; [exact no_gcfg_ok|discriminate]. Qed.

(** C60: between iterations clear() empties the IMU, encoder and result buffers and keeps
    the estimate (the buffers of gyro propagation and of further IMUs are not emptied); ... *)
Theorem C60_clear_between_partial : forall g qi qa, gf_imu g = Some qi -> gf_av g = Some qa ->
  exists g', gf_step g GClear = Ok g' /\ gf_imu g' = Some [] /\ gf_av g' = Some [] /\ gf_out g' = [] /\ gf_x g' = gf_x g /\ gf_P g' = gf_P g.
Proof. exact thm_clear_between. Qed.
Print Assumptions C60_clear_between_partial.
Example C60_example : exists g, gf_run (gf_setup (ImuAngVelEKF_config no_gcfg) [AImu; AAv]) [GRun; GImu (at_time 1)] = Ok g /\ gf_imu g = Some [at_time 1] /\ gf_av g = Some [].
Proof. exists ex_g1. split; [exact ex_run1|]. split; reflexivity. Qed.
(** ... during an iteration it may empty the queue the iteration is about to pop from, ... *)
Theorem C60_clear_race_refuted : forall m, gf_run (gf_setup (ImuAngVelEKF_config no_gcfg) [AImu; AAv]) [GRun; GImu m; GRunClr] = Fail EmptyQueue.
Proof. exact thm_clear_race. Qed.
Print Assumptions C60_clear_race_refuted.
(** ... and without an encoder it dereferences a null buffer. *)
Theorem C60_clear_null_refuted : forall c, gf_run (gf_setup (ImuAngVelEKF_config c) [AImu]) [GClear] = Fail NullDeref.
Proof. exact thm_clear_null. Qed.
Print Assumptions C60_clear_null_refuted.

(** C61: while only gyro samples arrive, the estimated rate has moved by the last used gyro
    reading minus the reading before the first used one, the bias is unchanged and the
    covariance has grown by one process noise per sample used. *)
Theorem C61_dead_reckoning : forall c l os0 g os g', greach c l os0 g -> no_corr g ->
  (forall o, In o os -> match o with GRun | GGyro _ => True | _ => False end) -> gf_run g os = Ok g' ->
  no_corr g' /\ exists us, q_of (gf_gyro g) ++ g_gyros os = us ++ q_of (gf_gyro g') /\ reckon g g' us.
Proof. exact thm_reckon_reach. Qed.
Print Assumptions C61_dead_reckoning.
Example C61_example : exists g, greach no_gcfg [AGyro; AImu] [GRun] g /\ no_corr g.
Proof. exact ex_no_corr. Qed.

(** C62: with nothing waiting, iterations change nothing if the filter propagates by the gyro;
    (refuted:) without gyro propagation every idle iteration adds the process noise. *)
Theorem C62_idle_iterations_partial : forall c l os g n g', greach c l os g -> g_idle g -> gf_pm g = GYRO -> gf_run g (repeat GRun n) = Ok g' -> g' = g.
Proof. intros c l os g n g' R I P E. exact (proj1 (thm_idle_reach c l os g n g' R I E) P). Qed.
Print Assumptions C62_idle_iterations_partial.
Theorem C62_idle_iterations_refuted : forall c l os g n g', greach c l os g -> g_idle g -> gf_pm g = RANDOM_WALK -> gf_run g (repeat GRun n) = Ok g' ->
  gf_x g' = gf_x g /\ gf_P g' = gf_P g +M INR n *S gf_Q g /\ gf_out g' = gf_out g.
Proof. intros c l os g n g' R I P E. exact (proj2 (thm_idle_reach c l os g n g' R I E) P). Qed.
Print Assumptions C62_idle_iterations_refuted.
Example C62_example : exists g, greach no_gcfg [AImu; AAv] [GRun] g /\ g_idle g /\ gf_pm g = RANDOM_WALK /\ gf_P g <> gf_P g +M INR 1 *S gf_Q g.
Proof. exact ex_idle. Qed.

(** C63: with static calibration over N samples the filter starts, once N IMU samples have been
    delivered, with zero rate and the mean of the first N IMU rates as bias; a window of
    zero divides by zero. *)
Theorem C63_calibration_mean : forall c N l os g g', q_static c = Some true -> q_size c = Some (Z.of_nat N) -> In AImu l -> forallb no_gclear os = true ->
  gf_run (gf_setup (ImuAngVelEKF_config c) l) os = Ok g -> gf_init g = false -> gf_step g GRun = Ok g' -> gf_init g' = true ->
  (0 < N <= length (g_imus os))%nat /\ head3 (gf_x g') = vzero /\ tail3 (gf_x g') = mean (map i_w (firstn N (g_imus os))).
Proof. exact thm_calib_reach. Qed.
Print Assumptions C63_calibration_mean.
Theorem C63_empty_window : forall c, q_static c = Some true -> q_size c = Some 0%Z -> gf_run (gf_setup (ImuAngVelEKF_config c) [AImu]) [GRun] = Fail DivZero.
Proof. exact thm_calib_zero. Qed.
Print Assumptions C63_empty_window.
Example C63_example : forall m1 m2, exists g g', gf_run (gf_setup (ImuAngVelEKF_config cal_gcfg) [AImu]) [GImu m1; GImu m2; GRun; GRun] = Ok g /\
  gf_init g = false /\ gf_step g GRun = Ok g' /\ gf_init g' = true.
Proof. exact ex_calib. Qed.

(** C64: with flat_ground off (or absent) no correction ever changes the roll and pitch rates or
    biases, and without gyro propagation every result has zero roll and pitch rate; ... *)
Theorem C64_flat_off_keeps_roll_pitch : forall im av size c l os g, gcfg_ok c -> q_flat c <> Some true -> gf_run (gf_setup (gf_make im av size c) l) os = Ok g ->
  (forall m g' o, AngVelFilterCorrectIMU g m = Ok (g', o) -> roll_pitch_same (gf_x g) (gf_x g')) /\
  (forall m a g' o, AngVelFilterCorrectEncoder g m a = Ok (g', o) -> roll_pitch_same (gf_x g) (gf_x g')).
Proof. exact thm_flat_false. Qed.
Print Assumptions C64_flat_off_keeps_roll_pitch.
Theorem C64_flat_off_zero_roll_pitch : forall im av size c l os g, gcfg_ok c -> q_flat c <> Some true -> ~ In AGyro l ->
  gf_run (gf_setup (gf_make im av size c) l) os = Ok g -> forall m, In m (gf_out g) -> v0 (i_w m) = 0 /\ v1 (i_w m) = 0.
Proof. exact thm_flat_false_zero. Qed.
Print Assumptions C64_flat_off_zero_roll_pitch.
(** ... with flat_ground on, roll and pitch rates are estimated: the option means the opposite of its description *)
Theorem C64_flat_on_refuted : forall m, exists g o, gf_run (gf_setup (ImuAngVelEKF_config flat_gcfg) [AImu; AAv]) [GRun; GImu m; GRun] = Ok g /\
  gf_out g = [o] /\ i_w o = (1 / 52) *s i_w m.
Proof. exact thm_flat_true. Qed.
Print Assumptions C64_flat_on_refuted.
Example C64_example : gcfg_ok no_gcfg /\ q_flat no_gcfg <> Some true /\ exists g, gf_run (gf_setup (gf_make None None (Some 250%Z) no_gcfg) [AImu; AAv]) [GRun; GImu (at_time 1)] = Ok g.
Proof. split; [exact no_gcfg_ok|]. split; [discriminate|]. exists ex_g1. exact ex_run1. Qed.
