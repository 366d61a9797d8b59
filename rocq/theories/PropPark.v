(** C82: a parked robot stays where it is. *)
From Coq Require Import Reals ZArith List Bool Arith Lra Lia.
From Verif Require Import Res Vec3 Mat LieGroup RobotState SpecProp Imu Propagation VelCorr LegCorr Quat Kinematics Estimator SpecEst SpecConv SpecTrack Driver SpecDriver Ros SpecRos Node SpecNode NodeThms NodeEx SpecPark Park ParkEx.
Import ListNotations.
Local Open Scope R_scope.

(** Estimator: the IMU always reads the same w and a (any biases, any tilt), the wheels or legs
    report no motion, calls and callbacks come in any order: every published pose and the
    current one are the initial one, with velocity zero, for ever. *)
Theorem C82_parked_estimator : forall f w a W os e, reachable f os e -> accounts_for f w a -> Forall (parked_op w a W) os ->
  Forall (fun s => pose_of s = mkPose mid vzero vzero) (published any_op (build f) os) /\ (e_enabled e = true -> pose_of (e_state e) = mkPose mid vzero vzero).
Proof. exact thm_parked. Qed.
Print Assumptions C82_parked_estimator.

(** Node: every pose message sent says: at the origin, not turned. *)
Theorem C82_parked_node : forall k P vs n w a, program_ok k P -> messages_ok (np_sensor P) (messages vs) -> accounts_for (np_est P) w a -> Forall (parked_event w a) vs -> node_run P vs = Ok n ->
  Forall at_origin (pb_sent (n_pub n)) /\ Forall (fun s => pose_of s = mkPose mid vzero vzero) (e_out (n_est n)).
Proof. exact thm_parked_node. Qed.
Print Assumptions C82_parked_node.

(** The shipped wheeled programs that calibrate themselves account for any readings. *)
Theorem C82_shipped_wheeled : forall w a, Forall (fun P => accounts_for (np_est P) w a) [fetch_node; husky_node; neya_node].
Proof. exact thm_shipped_parked. Qed.
Print Assumptions C82_shipped_wheeled.

(** Husky with a gyro bias, tilted, 253 samples: calibrated, started and publishing. *)
Definition pk_vs : list nodev := flat_map (tick (mkVM 1 vzero)) (map pk_msg (seq 0 253)).
Example C82_ex : program_ok 10 husky_node /\ messages_ok (np_sensor husky_node) (messages pk_vs) /\ accounts_for (np_est husky_node) (v3 0.01 0 0.02) (v3 1 2 9) /\
  Forall (parked_event (v3 0.01 0 0.02) (v3 1 2 9)) pk_vs /\ exists n, node_run husky_node pk_vs = Ok n /\ (1 <= length (pb_sent (n_pub n)) + length (e_out (n_est n)))%nat.
Proof.
  assert (program_ok 10 husky_node) as HP by (apply (proj1 (Forall_forall _ _) thm_nodes_ok husky_node); cbn; tauto). split; [exact HP|].
  destruct (thm_tick 10 husky_node _ (mkVM 1 vzero) (map pk_msg (seq 0 253)) HP eq_refl) as (A & B & n & R & L).
  - apply Forall_forall. intros m Hm. apply in_map_iff in Hm. destruct Hm as (i & <- & _). right. unfold qnorm2. cbn. ring.
  - apply seq_sorted.
  - split; [exact A|]. split; [apply (proj1 (Forall_forall _ _) (thm_shipped_parked _ _)); cbn; tauto|]. split; [apply tick_parked|].
    exists n. split; [exact R|]. assert (window (np_est husky_node) = 250%nat) as Wn by reflexivity. rewrite Wn, map_length, seq_length in L. lia.
Qed.
