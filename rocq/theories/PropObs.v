(** Properties C76, C77: what the filter cannot know, and what a reading tells it. *)
From Coq Require Import Reals ZArith List Bool Arith Lia Lra.
From Verif Require Import Res Vec3 Mat MatInv Psd Spec LieGroup RobotState Inekf SpecFilter Imu Propagation SpecProp VelCorr LegCorr SpecCorr ImuNeg LegHist VelThms
  Estimator SpecEst EstSafe EstPub EstEx SpecObs Obs ObsEst ObsThms ObsDir ObsCorr ClearEx EstTime ConvEx VelCorr Queue.
Import ListNotations.
Local Open Scope R_scope.

(** C76: no call other than clear ever reduces the uncertainty about a shift of the world or a
    turn of the world about the vertical (nor about any combination): propagations and
    corrections, of any number, in any order, with any readings, in both error conventions; *)
Theorem C76_never_learns_the_unobservable : forall f os1 os2 e1 e2, reachable f (os1 ++ os2) e2 -> est_run (build f) os1 = Ok e1 -> e_enabled e1 = true -> ~ In OClear os2 ->
  forall w a c, uncertain (f_err f) (e_state e1) w a c -> uncertain (f_err f) (e_state e2) w a c.
Proof. exact thm_unobservable. Qed.
Print Assumptions C76_never_learns_the_unobservable.
(** so every estimate it ever produces has at least the position uncertainty it was configured
    to start with, in every direction; *)
Theorem C76_position_floor : forall f os, config_ok f -> imu_stream (imus os) -> protocol (build f) os ->
  each_estimate f os (fun s => m3_le (start_cov f 2) (cov_block (sP s) 2)).
Proof. exact thm_position_floor. Qed.
Print Assumptions C76_position_floor.
(** and, in the right-invariant convention, at least the initial heading uncertainty. *)
Theorem C76_heading_floor : forall f os, config_ok f -> imu_stream (imus os) -> protocol (build f) os -> f_err f = RightInvariant ->
  each_estimate f os (fun s => var_of (k_rot (f_est f)) (3 / 100) <= ent (sP s) 2 2).
Proof. exact thm_heading_floor. Qed.
Print Assumptions C76_heading_floor.
(** The direction meant is that of moving the world: the derivative at 0 of the pose matrix of
    the world turned by t*w and shifted by t*a is the error direction (w, a) applied to it. *)
Theorem C76_direction_is_moving_the_world : forall K X w a i j, SEK K X -> (i < 3 + K)%nat -> (j < 3 + K)%nat ->
  derivable_pt_lim (fun t => ent (moved K (t * w) (t *s a) X) i j) 0 (ent (hat K (sub (world_move K w a) 0 0 (3 + 3 * K) 1) *M X) i j).
Proof. exact thm_direction. Qed.
Print Assumptions C76_direction_is_moving_the_world.
(** a run with a propagation and a velocity correction after InitState; at InitState the
    filter is as uncertain as configured about the heading and about every shift *)
Example C76_example : exists os1 os2 e1 e2, reachable exF (os1 ++ os2) e2 /\ est_run (build exF) os1 = Ok e1 /\ e_enabled e1 = true /\ ~ In OClear os2 /\
  f_err exF = RightInvariant /\ map st (published is_filter_op e1 os2) = [Some 1; Some (9 / 10)] /\
  uncertain (f_err exF) (e_state e1) 1 vzero (3 / 100) /\ forall a, vdot a a = 1 -> uncertain (f_err exF) (e_state e1) 0 a (1 / 100000).
Proof.
  destruct ex_states as (e4 & e5 & e6 & e7 & e8 & R3 & S4 & S5 & S6 & S7 & S8 & P3 & P4 & P5 & O6 & O8 & T6 & T8 & _).
  rewrite <- step_init in S4. rewrite <- step_run in S6, S8.
  pose proof (run_app _ _ _ _ _ R3 (run_one _ _ _ S4)) as E1.
  pose proof (run_two _ _ _ _ _ S5 (run_two _ _ _ _ _ S6 (run_two _ _ _ _ _ S7 (run_one _ _ _ S8)))) as E2.
  pose proof (run_app _ _ _ _ _ E1 E2) as E3.
  pose proof (published_two _ _ _ _ _ _ _ _ _ S5 S6 S7 S8 O6 O8) as EP.
  assert ((exPre ++ [OInitState []]) ++ [OImu (exM 2); ORunOnce []; OVel 0 (exV (9 / 10)); ORunOnce []] = exOps) as EO by reflexivity.
  pose proof exProtocol as HP2. rewrite <- EO in HP2. pose proof (protocol_prefix _ _ _ HP2) as HP.
  assert (imu_stream (imus (exPre ++ [OInitState []]))) as HS by (split; [repeat constructor; unfold qnorm2; cbn; ring|cbn; auto]).
  pose proof exStream as HS2. rewrite <- EO in HS2.
  pose proof (fun w a c => uncertain_at exF _ e4 w a c exF_ok HS HP E1 P3 eq_refl) as HU. clear EO.
  exists (exPre ++ [OInitState []]), [OImu (exM 2); ORunOnce []; OVel 0 (exV (9 / 10)); ORunOnce []], e4, e8.
  split; [exact (conj exF_ok (conj HS2 (conj HP2 E3)))|]. split; [exact E1|]. split; [exact P3|]. split; [cbn [In]; intuition discriminate|]. split; [reflexivity|].
  split; [rewrite EP; cbn [map]; rewrite T6, T8; reflexivity|].
  split; [apply HU; cbn [var_of k_rot k_pos f_est exF exE]; apply fits_heading; lra|]. intros a Ha. apply HU. cbn [var_of k_rot k_pos f_est exF exE]. apply fits_pos; lra.
Qed.

(** C77: a velocity reading that is used leaves the covariance of the velocity (world axes) no
    larger than the reading's own, whatever it was before; *)
Theorem C77_velocity_as_certain_as_the_reading : forall K c s sched c' s', wfp K s -> psd (sP s) -> vel_noise_ok c -> vel_Correct c s sched = Ok (true, c', s') ->
  m3_le (velocity_cov (vc_err c) s') (rot (sX s) *m vc_cov c *m mtr (rot (sX s))).
Proof. exact thm_velocity_bound. Qed.
Print Assumptions C77_velocity_as_certain_as_the_reading.
(** and a leg measurement that is used leaves, for every foot it reports in contact, the
    covariance of the foot relative to the body no larger than that of the measured foot
    position (equal to it for a foot that has just touched down). *)
Theorem C77_feet_as_certain_as_the_measurement : forall n c h s last sched c' h' s', leg_reach n c h s last -> psd (sP s) -> leg_noise_ok c -> leg_Correct c h s sched = Ok (true, c', h', s') ->
  exists m, first_fresh (lc_thr c) (stprop s) (lc_queue c ++ concat sched) = Some m /\ st s' = Some (lm_t m) /\ forall id o, nth_error (lm_legs m) id = Some o -> lo_contact o = true ->
  exists k, contact_of c' h' id = Some k /\
    ((tracked c id /\ m3_le (foot_cov (lc_err c) s' k) (rot (sX s) *m kin_cov c o *m mtr (rot (sX s)))) \/
     (~ tracked c id /\ foot_cov (lc_err c) s' k = rot (sX s') *m kin_cov c o *m mtr (rot (sX s')))).
Proof. exact thm_foot_bound. Qed.
Print Assumptions C77_feet_as_certain_as_the_measurement.
(** one velocity reading in the window; one leg measurement with two feet in contact *)
Example C77_example : (exists c' s', let s := ex_state 2 (meye 15) 1 in wfp 2 s /\ psd (sP s) /\ vel_noise_ok (ex_vc [mkVM (9 / 10) (mkV 1 0 0)]) /\
    vel_Correct (ex_vc [mkVM (9 / 10) (mkV 1 0 0)]) s [] = Ok (true, c', s')) /\
  (exists c s c' h' s' m, leg_reach 2 c [] s None /\ psd (sP s) /\ leg_noise_ok c /\ leg_Correct c [] s [] = Ok (true, c', h', s') /\
     first_fresh (lc_thr c) (stprop s) (lc_queue c ++ concat []) = Some m /\ map lo_contact (lm_legs m) = [true; true]).
Proof.
  split.
  - set (s := ex_state 2 (meye 15) 1). assert (wfp 2 s) as W by (apply ex_wfp; auto). set (m := mkVM (9 / 10) (mkV 1 0 0)). set (c := ex_vc [m]).
    assert (vel_noise_ok c) as HN by (apply ctor_vel_noise; discriminate).
    destruct (vel_update_total 2 c m s W (psd_eye 15) HN) as (s' & E & _).
    exists (vc_set_queue c []), s'. cbv zeta. split; [exact W|]. split; [exact (psd_eye 15)|]. split; [exact HN|].
    rewrite (thm_vel_progress c s m [] [] 1); [rewrite E; reflexivity|reflexivity|reflexivity|].
    cbn [vc_thr c ex_vc VelocityCorrection no_vcfg g_thr dflt vm_t m]. lra.
  - set (s := set_cmap (ex_state 2 (meye 15) 1) (repeat None 5)).
    assert (wfp 2 s) as W. { destruct (ex_wfp 2 (meye 15) 1) as [[] ? ? ? ?]; auto. split; auto. split; auto. }
    set (m := mkLM 1 [mkLO true (mkV 0 0 (-1)) mid; mkLO true (mkV 1 0 (-1)) mid] (fun _ => vzero)). set (c := ex_lc [m]).
    assert (leg_reach 2 c [] s None) as HR by (apply LR_start; [repeat constructor|auto|reflexivity]).
    assert (leg_noise_ok c) as HN by (apply ctor_leg_noise; discriminate).
    destruct (thm_leg_total 2 c [] s None [] HR (psd_eye 15) HN) as (b & c' & h' & s' & E & _); [eexists; reflexivity|].
    assert (b = true) as ->.
    { destruct b; auto. exfalso. unfold leg_Correct in E. cbn [lc_queue c ex_lc LeggedKinematicsCorrection hd_batch app] in E. unfold get_propagate_time in E.
      change (stprop s) with (Some 1) in E. cbn [of_opt bind] in E. cbn [lc_thr c ex_lc LeggedKinematicsCorrection no_lcfg h_thr dflt lm_t m] in E.
      assert (too_old (3 / 10) 1 1 = false) as E0 by (apply too_old_false; unfold stale; lra). rewrite E0 in E.
      apply bind_inv in E. destruct E as ([[? ?] ?] & _ & [=]). }
    exists c, s, c', h', s', m. split; [exact HR|]. split; [exact (psd_eye 15)|]. split; [exact HN|]. split; [exact E|]. split; [|reflexivity].
    change (stprop s) with (Some 1). cbn [lc_thr lc_queue c ex_lc LeggedKinematicsCorrection no_lcfg h_thr dflt app concat first_fresh find].
    unfold fresh. cbn [lm_t m]. destruct (Rle_dec (1 - 3 / 10) 1); [reflexivity|lra].
Qed.
