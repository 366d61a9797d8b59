(** Property C83: one iteration is the textbook filter step, with the configured parameters. *)
From Coq Require Import Reals ZArith List Bool Arith Lia Lra.
From Verif Require Import Res Vec3 Mat MatInv Psd Spec LieGroup RobotState Inekf SpecFilter Imu Propagation SpecProp VelCorr LegCorr SpecCorr Quat Queue
  Estimator SpecEst EstInv EstSafe EstPub EstTime EstEx SpecTrack SpecStep ObsThms ClearEx ConvEx Step StepCal.
Import ListNotations.
Local Open Scope R_scope.

(** RunOnce, in any reachable running state: if a sample waits, the state is first predicted
    over the sample in turn (the next one of the IMU stream), mean and covariance, with the
    noise densities, mounting, lever arm and biases of the configuration file; then every
    configured correction, in order, uses at most one of its readings, with its configured
    noise, mounting, scale and time window; nothing else happens to the state. *)
Theorem C83_iteration : forall f os e l e', reachable f os e -> e_enabled e = true -> est_step e (ORunOnce l) = Ok e' ->
  exists s1 tp,
    (imu_queue e = [] -> s1 = e_state e) /\
    (imu_queue e <> [] -> exists m K t0 fresh Phi, in_turn (imus os) m (imu_queue e) /\ predicted f m (e_state e) s1 K t0 fresh Phi) /\
    stprop s1 = Some tp /\
    corrected (f_err f) tp (f_corrs f) (e_corrs e) l (e_heap e) s1 (e_corrs e') (e_heap e') (e_state e').
Proof. exact thm_iteration_sample. Qed.
Print Assumptions C83_iteration.

(** InitState, when it starts the filter: the biases are the configured ones, or the means over
    the first calib_window samples of the IMU stream. *)
Theorem C83_initial_biases : forall f os e l e', reachable f os e -> ~ In OClear os -> allowed e (OInitState l) -> est_step e (OInitState l) = Ok e' -> e_enabled e' = true ->
  starts_with f (imus os) (gbias (e_state e')) (abias (e_state e')).
Proof. exact thm_initial_biases. Qed.
Print Assumptions C83_initial_biases.

(** a started filter with a sample waiting, and the call that starts it *)
Example C83_ex : (exists os e e', reachable exF os e /\ e_enabled e = true /\ imu_queue e <> [] /\ est_step e (ORunOnce []) = Ok e') /\
  (exists os e e', reachable exF os e /\ ~ In OClear os /\ allowed e (OInitState []) /\ est_step e (OInitState []) = Ok e' /\ e_enabled e' = true).
Proof.
  destruct ex_states as (e4 & e5 & e6 & e7 & e8 & R3 & S4 & S5 & S6 & S7 & S8 & P3 & P4 & P5 & O6 & O8 & T6 & T8 & _).
  rewrite <- step_init in S4. rewrite <- step_run in S6, S8.
  pose proof (run_app _ _ _ _ _ R3 (run_one _ _ _ S4)) as E1.
  pose proof (run_app _ _ _ _ _ E1 (run_one _ _ _ S5)) as E2.
  assert (imu_stream (imus exPre)) as HS by (split; [repeat constructor; unfold qnorm2; cbn; ring|cbn; auto]).
  split.
  - assert (((exPre ++ [OInitState []]) ++ [OImu (exM 2)]) ++ [ORunOnce []; OVel 0 (exV (9 / 10)); ORunOnce []] = exOps) as EO by reflexivity.
    pose proof exProtocol as HP2. rewrite <- EO in HP2. pose proof (protocol_prefix _ _ _ HP2) as HP.
    assert (imu_stream (imus ((exPre ++ [OInitState []]) ++ [OImu (exM 2)]))) as HS2 by (split; [repeat constructor; unfold qnorm2; cbn; ring|cbn; repeat split; lra]).
    exists ((exPre ++ [OInitState []]) ++ [OImu (exM 2)]), e5, e6.
    split; [exact (conj exF_ok (conj HS2 (conj HP E2)))|]. split; [exact P4|]. split; [|exact S6].
    cbn [est_step] in S5. destruct (e_prop e4) as [ip|]; [|discriminate]. cbn [of_opt bind] in S5. injection S5 as <-. cbn [imu_queue e_set_prop e_prop set_queue ip_queue].
    destruct (ip_queue ip); discriminate.
  - assert (exPre ++ [OInitState []; OImu (exM 2); ORunOnce []; OVel 0 (exV (9 / 10)); ORunOnce []] = exOps) as EO by reflexivity.
    pose proof exProtocol as HP2. rewrite <- EO in HP2. pose proof (protocol_prefix _ _ _ HP2) as HP.
    exists exPre, exE3, e4. split; [exact (conj exF_ok (conj HS (conj HP R3)))|]. split; [cbn [exPre In]; intuition discriminate|]. split; [exact exA3|]. split; [exact S4|exact P3].
Qed.
