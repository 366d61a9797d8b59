(** Properties C40, C41, C65-C69: the ROS layer. *)
From Coq Require Import Reals ZArith List Bool Arith Lia Lra.
From Verif Require Import Res Vec3 Mat Psd Spec LieGroup LieSO3 RobotState SpecFilter SpecProp Imu Propagation VelCorr LegCorr ImuFilter Quat ImuNeg Kinematics SpecKin Estimator SpecEst Ros SpecRos RosThms RosPub RosOdom RosNeg RosAtomic.
Import ListNotations.
Local Open Scope R_scope.

(** C40: messages with enough entries (four for the four-wheel robots, three for Fetch). *)
Theorem C40_four_wheels : forall msg radius track q aq e0 e1 e2 e3 rest, js_vel msg = e0 :: e1 :: e2 :: e3 :: rest ->
  DifferentialEncoder2VelocityCallback msg radius q = Ok (q ++ [mkVM (time_of (js_stamp msg)) (drive_speed ((e0 + e2) / 2) ((e1 + e3) / 2) radius)]) /\
  (track <> 0 -> DifferentialEncoder2VelocityCallback_w msg radius track q aq =
    Ok (q ++ [mkVM (time_of (js_stamp msg)) (drive_speed ((e0 + e2) / 2) ((e1 + e3) / 2) radius)], aq ++ [mkAV (time_of (js_stamp msg)) (drive_yaw_rate ((e0 + e2) / 2) ((e1 + e3) / 2) radius track)])).
Proof. intros. split; [eapply thm_encoder; eauto|intros; eapply thm_encoder_w; eauto]. Qed.
Print Assumptions C40_four_wheels.
Theorem C40_fetch : forall msg radius track q aq e0 e1 e2 rest, js_vel msg = e0 :: e1 :: e2 :: rest ->
  DifferentialEncoder2LinearVelocityCallback_Fetch msg radius q = Ok (q ++ [mkVM (time_of (js_stamp msg)) (drive_speed e0 e1 radius)]) /\
  (track <> 0 -> DifferentialEncoder2VelocityCallback_Fetch msg radius track q aq =
    Ok (q ++ [mkVM (time_of (js_stamp msg)) (drive_speed e0 e1 radius)], aq ++ [mkAV (time_of (js_stamp msg)) (drive_yaw_rate e0 e1 radius track)])).
Proof. intros. split; [eapply thm_encoder_fetch; eauto|intros; eapply thm_encoder_fetch_w; eauto]. Qed.
Print Assumptions C40_fetch.
(** the Fetch callbacks reject shorter messages *)
Theorem C40_fetch_rejects_short : forall msg radius track q aq, (length (js_vel msg) <= 2)%nat ->
  DifferentialEncoder2LinearVelocityCallback_Fetch msg radius q = Ok q /\ DifferentialEncoder2VelocityCallback_Fetch msg radius track q aq = Ok (q, aq).
Proof. exact thm_fetch_rejects. Qed.
Print Assumptions C40_fetch_rejects_short.
(** the four-wheel callbacks do not: they read past the end of the message *)
Theorem C40_rejects_short_refuted : forall msg radius track q aq, (length (js_vel msg) < 4)%nat ->
  DifferentialEncoder2VelocityCallback msg radius q = Fail BadRead /\ DifferentialEncoder2VelocityCallback_w msg radius track q aq = Fail BadRead.
Proof. exact thm_encoder_short. Qed.
Print Assumptions C40_rejects_short_refuted.
(** and a configured track width of zero divides by zero *)
Theorem C40_zero_track_width : forall msg radius q aq, (4 <= length (js_vel msg))%nat ->
  DifferentialEncoder2VelocityCallback_w msg radius 0 q aq = Fail DivZero /\ DifferentialEncoder2VelocityCallback_Fetch msg radius 0 q aq = Fail DivZero.
Proof. exact thm_track_zero. Qed.
Print Assumptions C40_zero_track_width.
(** time stamps in seconds, from whole seconds and nanoseconds *)
Theorem C40_stamp_in_seconds : forall s, 1000000000 * time_of s = IZR (1000000000 * sec s + nsec s).
Proof. exact thm_stamp_seconds. Qed.
Print Assumptions C40_stamp_in_seconds.
Example C40_example : DifferentialEncoder2VelocityCallback (mkJS (mkStamp 3 500000000) [] [1; 3; 1; 3]) (1 / 2) [] = Ok [mkVM (7 / 2) (mkV 1 0 0)].
Proof. rewrite (thm_encoder _ _ _ 1 3 1 3 []) by reflexivity. unfold time_of, drive_speed. cbn. do 3 f_equal; [field|f_equal; field]. Qed.

(** C41: without clear, and with at least as many poses as path poses per second, the publisher
    never fails; every state pushed is published once, in order, each message with the state's
    time, world position and orientation and a running number. *)
Theorem C41_every_state_published_once : forall k pr par l, ratio_is k pr par -> no_clear l -> Forall publishable (pushed_states l) ->
  exists p ss, pub_run (ROSPublisher [] pr par) l = Ok p /\ pushed_states l = ss ++ pb_q p /\ all_say ss (pb_sent p).
Proof. exact thm_publisher. Qed.
Print Assumptions C41_every_state_published_once.
(** one pass of the pose thread publishes the oldest state waiting *)
Theorem C41_pose_pass : forall k pr par l p s q, ratio_is k pr par -> no_clear l -> Forall publishable (pushed_states l) -> pub_run (ROSPublisher [] pr par) l = Ok p -> pb_q p = s :: q ->
  exists p' m, pub_run p [PCheck; PTake] = Ok p' /\ pb_q p' = q /\ pb_sent p' = pb_sent p ++ [m] /\ says (length (pb_sent p)) s m.
Proof. exact thm_pose_pass. Qed.
Print Assumptions C41_pose_pass.
(** the path is every k-th pose, k the integer part of pose rate / path rate (for the first 2^31 poses) *)
Theorem C41_path_is_every_kth_pose : forall k pr par l p, ratio_is k pr par -> no_clear l -> Forall publishable (pushed_states l) -> (Z.of_nat (length (pushed_states l)) < 2147483648)%Z -> pub_run (ROSPublisher [] pr par) l = Ok p ->
  pb_poses p = map in_path (every k (pb_sent p)) /\ Forall (path_ok k (pb_sent p)) (pb_paths p).
Proof. exact thm_path. Qed.
Print Assumptions C41_path_is_every_kth_pose.
(** every state a reachable estimator has queued for publication can be published *)
Theorem C41_estimator_states_are_publishable : forall f os e, reachable f os e -> Forall publishable (e_out e).
Proof. exact thm_estimator_publishable. Qed.
Print Assumptions C41_estimator_states_are_publishable.
(** the covariance sent is the corner of the filter's covariance, i.e. that of (orientation, velocity) ... *)
Theorem C41_covariance_sent : forall k pr par l p ss, ratio_is k pr par -> no_clear l -> Forall publishable (pushed_states l) -> pub_run (ROSPublisher [] pr par) l = Ok p -> pushed_states l = ss ++ pb_q p ->
  forall n s m, nth_error ss n = Some s -> nth_error (pb_sent p) n = Some m -> forall i j, (i < 6)%nat -> (j < 6)%nat -> nth_error (pm_cov m) (6 * i + j) = Some (ent (sP s) i j).
Proof. exact thm_cov. Qed.
Print Assumptions C41_covariance_sent.
(** ... and not that of (position, orientation), as the message type requires. *)
Theorem C41_pose_covariance_refuted : exists l p s m, pub_run (ROSPublisher [] 1000 10) l = Ok p /\ pushed_states l = [s] /\ pb_sent p = [m] /\ publishable s /\ psd (sP s) /\ ~ is_pose_covariance (sP s) (pm_cov m).
Proof. exact thm_cov_refuted. Qed.
Print Assumptions C41_pose_covariance_refuted.
(** a path rate above the pose rate: the first pose is a remainder by zero *)
Theorem C41_fast_path_refuted : forall pr par s, publishable s -> 0 <= pr -> pr < par -> pub_run (ROSPublisher [] pr par) [PPush s; PCheck; PTake] = Fail DivZero.
Proof. exact thm_fast_path. Qed.
Print Assumptions C41_fast_path_refuted.
Example C41_example : ratio_is 100 1000 10 /\ no_clear [PPush ex_pub; PCheck; PPush ex_pub; PTake; PPath] /\ Forall publishable (pushed_states [PPush ex_pub; PCheck; PPush ex_pub; PTake; PPath]).
Proof. split; [exact ratio_100|]. split; [intros [H|[H|[H|[H|[H|[]]]]]]; discriminate|]. repeat constructor; apply ex_pub_ok. Qed.

(** C65: for a robot moving with constant twist the velocity derived from two consecutive
    odometry poses of a source is the body velocity, exactly, when the rotation between them is below pi. *)
Theorem C65_velocity_from_odometry : forall l o id m1 o1 m2 t q w v Rb pb, os_run ROSSubscriber_odom l = Ok o -> last_added l = Some (t, q) -> SO3 (toRotationMatrix q) ->
  Odom2VelocityCallback o m1 id = Ok o1 -> let t1 := time_of (om_stamp m1) in let t2 := time_of (om_stamp m2) in
  constant_twist w v Rb pb -> odom_reports m1 (toRotationMatrix q) t (Rb t1) (pb t1) -> odom_reports m2 (toRotationMatrix q) t (Rb t2) (pb t2) ->
  t1 < t2 -> vnorm w * (t2 - t1) < PI ->
  exists o2 vq, Odom2VelocityCallback o1 m2 id = Ok o2 /\ nth_error (os_q o1) id = Some vq /\ nth_error (os_q o2) id = Some (vq ++ [mkVM t2 v]) /\
    forall id', id' <> id -> nth_error (os_q o2) id' = nth_error (os_q o1) id'.
Proof. exact thm_odom_velocity. Qed.
Print Assumptions C65_velocity_from_odometry.
(** two poses with the same stamp *)
Theorem C65_equal_stamps_divide_by_zero : forall o m1 o1 m2 id E pT, os_ext o = Some (transform E pT) -> SO3 E -> Odom2VelocityCallback o m1 id = Ok o1 -> SO3 (toRotationMatrix (om_q m1)) -> time_of (om_stamp m1) = time_of (om_stamp m2) -> Odom2VelocityCallback o1 m2 id = Fail DivZero.
Proof. exact thm_equal_stamps. Qed.
Print Assumptions C65_equal_stamps_divide_by_zero.
(** a robot on a circle, with a second source *)
Example C65_example : exists t q m1 m2 w v Rb pb o, let l2 := [OSMsg m1 1] in let l := [OSAdd t q; OSAdd t q] ++ OSMsg m1 0 :: l2 in let t1 := time_of (om_stamp m1) in let t2 := time_of (om_stamp m2) in
  Forall (adds t q) l /\ Forall (elsewhere 0) l2 /\ SO3 (toRotationMatrix q) /\ os_run ROSSubscriber_odom l = Ok o /\ constant_twist w v Rb pb /\
  odom_reports m1 (toRotationMatrix q) t (Rb t1) (pb t1) /\ odom_reports m2 (toRotationMatrix q) t (Rb t2) (pb t2) /\ t1 < t2 /\ vnorm w * (t2 - t1) < PI /\ w <> vzero /\ v = mkV 0 1 0.
Proof. exact thm_odom_example. Qed.
(** C66, the part that holds: any number of sources with one and the same mounting, whatever
    messages of the other sources come in between (the example above meets the hypotheses). *)
Theorem C66_same_mounting_partial : forall t q l1 m1 l2 id o m2 w v Rb pb, Forall (adds t q) (l1 ++ OSMsg m1 id :: l2) -> Forall (elsewhere id) l2 -> SO3 (toRotationMatrix q) ->
  os_run ROSSubscriber_odom (l1 ++ OSMsg m1 id :: l2) = Ok o -> let t1 := time_of (om_stamp m1) in let t2 := time_of (om_stamp m2) in
  constant_twist w v Rb pb -> odom_reports m1 (toRotationMatrix q) t (Rb t1) (pb t1) -> odom_reports m2 (toRotationMatrix q) t (Rb t2) (pb t2) ->
  t1 < t2 -> vnorm w * (t2 - t1) < PI ->
  exists o2 vq, Odom2VelocityCallback o m2 id = Ok o2 /\ nth_error (os_q o) id = Some vq /\ nth_error (os_q o2) id = Some (vq ++ [mkVM t2 v]) /\
    forall id', id' <> id -> nth_error (os_q o2) id' = nth_error (os_q o) id'.
Proof. exact thm_same_mounting. Qed.
Print Assumptions C66_same_mounting_partial.
(** C66: each source should be converted with its own mounting; a second source overwrites the first one's. *)
Theorem C66_two_sources_refuted : exists t0 q0 t1 q1 m1 m2 o w v v' Rb pb, let s1 := time_of (om_stamp m1) in let s2 := time_of (om_stamp m2) in
  os_run ROSSubscriber_odom [OSAdd t0 q0; OSAdd t1 q1; OSMsg m1 0; OSMsg m2 0] = Ok o /\ constant_twist w v Rb pb /\
  odom_reports m1 (toRotationMatrix q0) t0 (Rb s1) (pb s1) /\ odom_reports m2 (toRotationMatrix q0) t0 (Rb s2) (pb s2) /\ s1 < s2 /\ vnorm w * (s2 - s1) < PI /\
  nth_error (os_q o) 0 = Some [mkVM s2 v'] /\ v' <> v.
Proof. exact thm_two_sources_refuted. Qed.
Print Assumptions C66_two_sources_refuted.

(** C67: IMU messages. *)
Theorem C67_imu_message : forall msg q,
  (im_q msg = mkQ 0 0 0 0 -> IMUCallback msg q = Ok (q ++ [mkImu (time_of (im_stamp msg)) (mkQ 1 0 0 0) (im_w msg) (im_a msg)])) /\
  (Rabs (qnorm2 (im_q msg) - 1) < 1 / 100000 -> IMUCallback msg q = Ok (q ++ [mkImu (time_of (im_stamp msg)) (im_q msg) (im_w msg) (im_a msg)])) /\
  (im_q msg <> mkQ 0 0 0 0 -> 1 / 100000 <= Rabs (qnorm2 (im_q msg) - 1) -> IMUCallback msg q = Fail Throw).
Proof. exact thm_imu_msg. Qed.
Print Assumptions C67_imu_message.
(** Fetch: the same with the offset message added to the rates *)
Theorem C67_fetch_imu_message : forall msg off q, FetchIMUCallBack msg off q = IMUCallback (mkImuMsg (im_stamp msg) (im_w msg +v off) (im_a msg) (im_q msg)) q.
Proof. exact thm_fetch_imu_msg. Qed.
Print Assumptions C67_fetch_imu_message.

(** C68: leg messages. *)
Theorem C68_leg_message : forall cs contacts msg q, (4 <= length contacts)%nat -> (12 <= length (js_pos msg))%nat -> (12 <= length (js_vel msg))%nat ->
  exists k lm, MiniCheetahKinCallBack cs contacts msg q = Ok (q ++ [(time_of cs, k)]) /\ leg_view (time_of cs) k = Ok lm /\ lm_t lm = time_of cs /\
  k_contacts k = firstn 4 contacts /\ k_enc k = firstn 12 (js_pos msg) /\ k_denc k = firstn 12 (js_vel msg) /\
  forall l, exists o, nth_error (lm_legs lm) (leg_id l) = Some o /\ nth_error contacts (leg_id l) = Some (lo_contact o) /\
    lo_pos o = foot_pos (leg_geom l) (fun j => nth j (js_pos msg) 0).
Proof. exact thm_leg_msg. Qed.
Print Assumptions C68_leg_message.
Theorem C68_short_leg_message_refuted : forall cs contacts msg q, (length contacts < 4 \/ length (js_pos msg) < 12 \/ length (js_vel msg) < 12)%nat -> MiniCheetahKinCallBack cs contacts msg q = Fail BadRead.
Proof. exact thm_leg_msg_short. Qed.
Print Assumptions C68_short_leg_message_refuted.
Example C68_example : (4 <= length [true; false; false; true])%nat /\ (12 <= length (repeat 1 12))%nat. Proof. rewrite repeat_length. cbn. lia. Qed.

(** C69: the publisher and clear().  With uninterrupted passes of the pose thread nothing fails,
    and what is published is a subsequence, in order, of what was pushed. *)
Theorem C69_no_failure_when_uninterrupted : forall k pr par l, ratio_is k pr par -> Forall publishable (pushed_states (expand l)) ->
  exists p ss, pub_run (ROSPublisher [] pr par) (expand l) = Ok p /\ subseq (ss ++ pb_q p) (pushed_states (expand l)) /\ all_say ss (pb_sent p).
Proof. exact thm_atomic. Qed.
Print Assumptions C69_no_failure_when_uninterrupted.
(** A clear between the test and the pop of one pass takes the front of an empty queue. *)
Theorem C69_clear_race_refuted : forall pr par s, pub_run (ROSPublisher [] pr par) [PPush s; PCheck; PClear; PTake] = Fail EmptyQueue.
Proof. exact thm_clear_race. Qed.
Print Assumptions C69_clear_race_refuted.
