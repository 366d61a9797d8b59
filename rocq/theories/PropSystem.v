(** Properties C74, C75: the shipped programs with a gyro filter. *)
From Coq Require Import Reals ZArith List Bool Arith Lia Lra.
From Verif Require Import Res Vec3 Mat MatInv Psd Spec LieGroup RobotState Inekf SpecFilter Imu Propagation SpecProp ImuFilter SpecGyro VelCorr LegCorr Estimator SpecEst EstEx
  Driver SpecDriver System SpecSystem SystemThms.
Import ListNotations.
Local Open Scope R_scope.

(** C74: filter thread and estimator together: whatever the sensors of the three programs
    deliver, in whatever interleaving, neither fails (except for an InitState that waits for
    ever for a velocity reading) and all that is published and logged is sound; *)
Theorem C74_filter_programs_are_safe : forall p vs, In p filter_programs -> inputs_ok (fp_adds p) vs ->
  match sys_run (fp_start p) vs with
  | Ok (g, e) => (exists n, wfp (2 + n) (e_state e) /\ psd (sP (e_state e))) /\ Forall sound (e_out e) /\ Forall sound (e_logq e) /\
      (forall s, e_pending e = Some s -> sound s) /\ (e_enabled e = true -> sound (e_state e))
  | Fail er => er = Spin /\ exists pre l post g1 e1, vs = pre ++ SProg (EIter l) :: post /\ sys_run (fp_start p) pre = Ok (g1, e1) /\
      e_enabled e1 = false /\ BiasInitialized e1 = Ok true /\ ~ fed_all (e_corrs e1) l
  end.
Proof. intros p vs H. apply thm_sys_safe. exact (proj1 (Forall_forall _ _) thm_filter_programs_ok p H). Qed.
Print Assumptions C74_filter_programs_are_safe.
(** refuted for the fourth program: the first iteration of its filter thread reads a value that was never set. *)
Theorem C74_husky_gyro_filter_refuted : sys_run husky_gyro_start [SFilter] = Fail BadRead.
Proof. exact thm_husky_gyro_unset. Qed.
Print Assumptions C74_husky_gyro_filter_refuted.
(** any streams of gyro and encoder readings; a velocity reading at each iteration *)
Example C74_example : forall xs, Forall (fun m => qnorm2 (i_q m) = 1) (map fst xs) -> sorted (map av_t (map snd xs)) ->
  In fetch_gyro_program filter_programs /\ inputs_ok (fp_adds fetch_gyro_program) (gyro_enc_run (exV 1) xs) /\ s_avs (gyro_enc_run (exV 1) xs) = map snd xs /\
  exists s, sys_run (fp_start fetch_gyro_program) (gyro_enc_run (exV 1) xs) = Ok s.
Proof.
  intros xs HU HS. destruct (gyro_enc_inputs (exV 1) xs HU HS) as [A B]. split; [cbn; tauto|]. split; [exact A|]. split; [exact B|]. apply thm_fetch_runs; auto.
Qed.

(** C75: the estimator sees a legal history whose IMU samples are the filtered ones: each
    correcting sample (encoder reading or IMU sample) gives at most one, in order, with its
    stamp, and with orientation and acceleration of a delivered sample (for an IMU: its own); *)
Theorem C75_what_the_estimator_sees : forall p vs g e, In p filter_programs -> inputs_ok (fp_adds p) vs -> sys_run (fp_start p) vs = Ok (g, e) ->
  exists os, reachable (fp_est p) os e /\
    (In AAv (fp_adds p) -> sublist (map i_t (imus os)) (map av_t (s_avs vs)) /\ forall m, In m (imus os) -> exists x, In x (s_gyros vs) /\ i_q m = i_q x /\ i_a m = i_a x) /\
    (In AImu (fp_adds p) -> sublist (map (fun m => (i_t m, i_q m, i_a m)) (imus os)) (map (fun m => (i_t m, i_q m, i_a m)) (s_imus vs))).
Proof. intros p vs g e H. apply thm_sys_protocol. exact (proj1 (Forall_forall _ _) thm_filter_programs_ok p H). Qed.
Print Assumptions C75_what_the_estimator_sees.
(** with gyro and encoder every waiting encoder reading is turned into a sample for the
    estimator by the next iteration (once a gyro sample has been seen); *)
Theorem C75_encoder_readings_pass : forall vs g e a q, inputs_ok (fp_adds fetch_gyro_program) vs -> sys_run (fp_start fetch_gyro_program) vs = Ok (g, e) ->
  gf_init g = true -> gf_latest g <> None -> gf_av g = Some (a :: q) ->
  forall g' e', sys_step (g, e) SFilter = Ok (g', e') -> gf_av g' = Some q /\ exists m, imu_queue e' = imu_queue e ++ [m] /\ i_t m = av_t a.
Proof. intros vs g e a q [H _]. apply (thm_av_passes fetch_gyro_program vs g e a q); auto. exact (proj1 (Forall_forall _ _) thm_filter_programs_ok _ (or_introl eq_refl)). Qed.
Print Assumptions C75_encoder_readings_pass.
(** refuted for the program with two IMUs: if the second IMU's clock (or delivery) is ahead by
    more than the threshold of 0.1 s once, no state is ever published, whatever follows; *)
Theorem C75_two_imus_blocked_refuted : forall m x vs, i_t m - i_t x > 0.1 -> Forall (event_ok (fp_adds husky_double_program)) vs -> (forall y, In y (s_gyros vs) -> i_t m <= i_t y) ->
  exists g e, sys_run (fp_start husky_double_program) ([SFilter; SGyro m; SFilter; SImu x] ++ vs) = Ok (g, e) /\ e_enabled e = false /\ e_out e = [].
Proof.
  intros m x vs Ht. apply thm_blocked; [exact (proj1 (Forall_forall _ _) thm_filter_programs_ok husky_double_program (or_intror (or_intror (or_introl eq_refl))))|reflexivity|discriminate|cbn; lra].
Qed.
Print Assumptions C75_two_imus_blocked_refuted.
(** and for the program with IMU and encoder (whatever the unset value is): the estimator gets
    samples out of order when an encoder reading is delivered after a later IMU sample. *)
Theorem C75_out_of_order_refuted : forall z m a, av_t a < i_t m ->
  exists g e, sys_run (gf_make (Some []) (Some []) (Some z) husky_gyro_cfg, build husky_gyro_filter) [SFilter; SImu m; SFilter; SAv a; SFilter] = Ok (g, e) /\
  map i_t (imu_queue e) = [i_t m; av_t a] /\ ~ sorted (map i_t (imu_queue e)).
Proof. intros z m a H. destruct (thm_out_of_order z m a) as (g & e & A & B). exists g, e. split; [exact A|]. split; [exact B|]. rewrite B. cbn. lra. Qed.
Print Assumptions C75_out_of_order_refuted.
(** hypotheses met: (1) the encoder program, any gyro sample with unit orientation, any encoder
    reading; (2) two IMUs a second apart, any later samples *)
Example C75_example : (forall m a, qnorm2 (i_q m) = 1 -> inputs_ok (fp_adds fetch_gyro_program) [SFilter; SGyro m; SFilter; SAv a] /\
    exists g e, sys_run (fp_start fetch_gyro_program) [SFilter; SGyro m; SFilter; SAv a] = Ok (g, e) /\ gf_init g = true /\ gf_latest g <> None /\ gf_av g = Some [a]) /\
  (i_t (at_time 2) - i_t (at_time 1) > 0.1 /\ Forall (event_ok (fp_adds husky_double_program)) [SFilter; SGyro (at_time 3); SImu (at_time 2); SFilter; SProg (EIter [])] /\
   forall y, In y (s_gyros [SFilter; SGyro (at_time 3); SImu (at_time 2); SFilter; SProg (EIter [])]) -> i_t (at_time 2) <= i_t y).
Proof.
  split; [exact ex_fetch|]. split; [cbn; lra|]. split; [repeat constructor; cbn; tauto|]. intros y [<-|[]]. cbn. lra.
Qed.
