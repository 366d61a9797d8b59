(** Properties C72, C73: the shipped main programs. *)
From Coq Require Import Reals ZArith List Bool Arith Lia Lra.
From Verif Require Import Res Vec3 Mat MatInv Psd Spec LieGroup RobotState Inekf SpecFilter Imu Propagation SpecProp VelCorr LegCorr Estimator SpecEst Driver SpecDriver DriverThms EstEx.
Import ListNotations.
Local Open Scope R_scope.

(** C72: whatever the sensors deliver (unit quaternions, stamps that do not go backwards),
    in whatever interleaving, each of the ten shipped programs runs without failure and all
    it publishes and logs is sound; its only failure is to wait for ever in an InitState
    during which the correction has no reading. *)
Theorem C72_shipped_programs_are_safe : forall f vs, In f shipped -> imu_stream (samples vs) ->
  match prog_run (build f) vs with
  | Ok e => (exists n, wfp (2 + n) (e_state e) /\ psd (sP (e_state e))) /\ Forall sound (e_out e) /\ Forall sound (e_logq e) /\
      (forall s, e_pending e = Some s -> sound s) /\ (e_enabled e = true -> sound (e_state e))
  | Fail er => er = Spin /\ exists pre l post e1, vs = pre ++ EIter l :: post /\ prog_run (build f) pre = Ok e1 /\
      e_enabled e1 = false /\ BiasInitialized e1 = Ok true /\ ~ fed_all (e_corrs e1) l
  end.
Proof. intros f vs H. apply thm_loop_safe. exact (proj1 (Forall_forall _ _) thm_shipped_ok f H). Qed.
Print Assumptions C72_shipped_programs_are_safe.
(** and each run is a history in the sense of the other properties, which therefore apply *)
Theorem C72_shipped_programs_follow_the_protocol : forall f vs e, In f shipped -> imu_stream (samples vs) -> prog_run (build f) vs = Ok e ->
  exists os, reachable f os e /\ imus os = samples vs.
Proof. intros f vs e H. apply thm_loop_protocol. exact (proj1 (Forall_forall _ _) thm_shipped_ok f H). Qed.
Print Assumptions C72_shipped_programs_follow_the_protocol.
(** the husky program with any stream of samples and a velocity reading at each iteration *)
Example C72_example : forall ms, imu_stream ms -> In husky shipped /\ samples (flat_map (with_reading (exV 1)) ms) = ms /\
  exists e, prog_run (build husky) (flat_map (with_reading (exV 1)) ms) = Ok e.
Proof.
  intros ms HS. assert (In husky shipped) as HI by (cbn; tauto). split; [exact HI|]. split; [apply samples_flat|].
  eapply thm_fed_program; [exact (proj1 (Forall_forall _ _) thm_shipped_ok _ HI)|reflexivity|exact HS].
Qed.

(** C73: once more samples than the calibration window have been taken the filter runs, and
    not before; the iterations that found a sample waiting have then published exactly one
    state per sample taken after the window; all but at most one of those iterations took a
    sample. *)
Theorem C73_one_state_per_sample : forall f vs e, In f shipped -> imu_stream (samples vs) -> prog_run (build f) vs = Ok e ->
  exists taken, samples vs = taken ++ imu_queue e /\ yield waiting_sample (build f) vs = (length taken - window f)%nat /\
    (iterations waiting_sample (build f) vs <= length taken + 1)%nat /\ (e_enabled e = true <-> (window f < length taken)%nat).
Proof. intros f vs e H. apply thm_one_per_sample. exact (proj1 (Forall_forall _ _) thm_shipped_ok f H). Qed.
Print Assumptions C73_one_state_per_sample.
(** each iteration publishes at most one state, the new current one; when the filter runs
    and a sample is waiting it does publish *)
Theorem C73_iteration : forall f vs e l e', In f shipped -> imu_stream (samples vs) -> prog_run (build f) vs = Ok e -> main_iteration e l = Ok e' ->
  exists pub, e_out e' = e_out e ++ pub /\ (length pub <= 1)%nat /\ (forall s, pub = [s] -> s = e_state e') /\
    (waiting_sample e = true -> e_enabled e = true -> pub <> []).
Proof. intros f vs e l e' H. apply thm_iteration. exact (proj1 (Forall_forall _ _) thm_shipped_ok f H). Qed.
Print Assumptions C73_iteration.
(** the windows of the shipped programs; C72_example gives runs *)
Example C73_example : map window shipped = [250; 250; 0; 250; 250; 250; 0; 0; 250; 250]%nat.
Proof. vm_compute. reflexivity. Qed.
