(** C81: the complete ROS nodes, from the messages that arrive to the pose messages sent. *)
From Coq Require Import Reals ZArith List Bool Arith Lra Lia.
From Verif Require Import Res Vec3 Mat RobotState SpecProp Imu Propagation VelCorr LegCorr Quat Kinematics Estimator SpecEst EstSafe EstPub SpecConv SpecSched Driver SpecDriver Ros SpecRos Node SpecNode NodeThms NodeEx.
Import ListNotations.
Local Open Scope R_scope.

(** Every history of a node — messages, iterations of the main loop, steps of the pose,
    path and logging threads, in any order — runs without undefined behaviour; the only way
    it does not go on is an iteration waiting for a velocity or leg reading that never comes.
    The estimator has been through a history of calls that delivers exactly the samples and
    readings the messages stand for, and the pose messages sent say, in order, the states it
    published. *)
Theorem C81_node_is_safe_and_publishes : forall k P vs, program_ok k P -> messages_ok (np_sensor P) (messages vs) ->
  match node_run P vs with
  | Ok n => exists os ss, reachable (np_est P) os (n_est n) /\ Forall2 sample_for (imu_messages (messages vs)) (imus os) /\
      reads (speed_for (np_sensor P)) (messages vs) (vels os) /\ reads (legs_for (np_sensor P)) (messages vs) (legs os) /\
      Forall (made_by vs) os /\ published any_op (build (np_est P)) os = ss ++ e_out (n_est n) /\ all_say ss (pb_sent (n_pub n))
  | Fail er => er = Spin /\ exists pre l post n1, vs = pre ++ NIter l :: post /\ node_run P pre = Ok n1 /\
      e_enabled (n_est n1) = false /\ BiasInitialized (n_est n1) = Ok true /\ ~ fed_all (e_corrs (n_est n1)) l
  end.
Proof. exact thm_node. Qed.
Print Assumptions C81_node_is_safe_and_publishes.

(** Progress: the samples taken are a prefix of the messages; every iteration that found one
    waiting took it (but for the one that starts the filter); all but the first window of
    them have been published, as messages sent or still queued; the filter is started exactly
    when more than a window has been taken. *)
Theorem C81_progress : forall k P vs n, program_ok k P -> messages_ok (np_sensor P) (messages vs) -> node_run P vs = Ok n ->
  exists taken, Forall2 sample_for (imu_messages (messages vs)) (taken ++ imu_queue (n_est n)) /\
    (busy (np_sensor P) (node_start P) vs <= length taken + 1)%nat /\
    (length taken <= window (np_est P) + length (pb_sent (n_pub n)) + length (e_out (n_est n)))%nat /\
    (e_enabled (n_est n) = true <-> (window (np_est P) < length taken)%nat).
Proof. exact NodeEx.thm_node_progress. Qed.
Print Assumptions C81_progress.

(** A pass of the pose thread sends the oldest waiting state. *)
Theorem C81_pose_pass : forall k P vs n s q, program_ok k P -> messages_ok (np_sensor P) (messages vs) -> node_run P vs = Ok n -> e_out (n_est n) = s :: q ->
  exists n' m, node_run P (vs ++ [NCheck; NTake]) = Ok n' /\ e_out (n_est n') = q /\ pb_sent (n_pub n') = pb_sent (n_pub n) ++ [m] /\ says (length (pb_sent (n_pub n))) s m.
Proof. exact thm_node_pass. Qed.
Print Assumptions C81_pose_pass.

(** The path is every k-th of the poses sent. *)
Theorem C81_path : forall k P vs n, program_ok k P -> messages_ok (np_sensor P) (messages vs) -> node_run P vs = Ok n -> (Z.of_nat (length (pb_sent (n_pub n))) < 2147483648)%Z ->
  pb_poses (n_pub n) = map in_path (every k (pb_sent (n_pub n))) /\ Forall (path_ok k (pb_sent (n_pub n))) (pb_paths (n_pub n)).
Proof. exact thm_node_path. Qed.
Print Assumptions C81_path.

(** The six shipped nodes are usable programs with ten poses per path pose; the only correction
    of each is of the kind of its second sensor. *)
Theorem C81_shipped_nodes : Forall (fun P => program_ok 10 P /\ wired P) nodes.
Proof. exact thm_nodes_ok. Qed.
Print Assumptions C81_shipped_nodes.

(** Non-vacuity: the Girona500 node fed with three IMU messages, a velocity reading during
    each iteration and a pass of the pose thread after it. *)
Definition ex_msg (i : Z) : imu_msg := mkImuMsg (mkStamp i 0) (v3 0 0 (IZR i)) (v3 1 0 9) (mkQ 1 0 0 0).
Definition ex_ms : list imu_msg := [ex_msg 1; ex_msg 2; ex_msg 3].
Definition ex_vs : list nodev := flat_map (tick (mkVM 1 (v3 1 0 0))) ex_ms.
Lemma ex_q : Forall (fun m => im_q m = mkQ 0 0 0 0 \/ qnorm2 (im_q m) = 1) ex_ms.
Proof. repeat apply Forall_cons; try apply Forall_nil; right; unfold qnorm2; cbn; ring. Qed.
Lemma ex_sorted : sorted (map (fun m => time_of (im_stamp m)) ex_ms).
Proof. cbn [map ex_ms sorted nondec ex_msg im_stamp]. unfold time_of. cbn [sec nsec]. repeat split; lra. Qed.
Example C81_ex : program_ok 10 girona500_node /\ messages_ok Twist (messages ex_vs) /\ imu_messages (messages ex_vs) = ex_ms /\
  exists n, node_run girona500_node ex_vs = Ok n /\ (2 <= length (pb_sent (n_pub n)) + length (e_out (n_est n)))%nat.
Proof.
  assert (program_ok 10 girona500_node) as HP by (apply (proj1 (Forall_forall _ _) thm_nodes_ok girona500_node); cbn; tauto). split; [exact HP|].
  destruct (thm_tick 10 girona500_node _ (mkVM 1 (v3 1 0 0)) ex_ms HP eq_refl ex_q ex_sorted) as (A & B & n & R & L).
  split; [exact A|]. split; [exact B|]. exists n. split; [exact R|]. assert (window (np_est girona500_node) = 0%nat) as W by reflexivity. rewrite W in L. cbn [length ex_ms] in L. lia.
Qed.
