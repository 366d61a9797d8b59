(** Model: the complete ROS nodes of ROS/drift/examples without a gyro filter: message
    callbacks (ros_subscriber.cpp), main loop (Driver.v) and publisher threads
    (ros_publisher.cpp) around one estimator.
    Simplifications: a callback's push is moved at once into the estimator's queue (the two
    are one shared queue, under one mutex); the subscribing thread, the loop and the
    publisher's and logger's threads interleave at the granularity of their critical
    sections; readings that arrive during an iteration are given converted ([list arrivals]). *)
From Coq Require Import Reals ZArith List Bool.
From Verif Require Import Res Vec3 Mat RobotState Imu Propagation VelCorr LegCorr Quat Kinematics Estimator SpecEst Driver Ros.
Import ListNotations.
Local Open Scope R_scope.

(** the second sensor of a program and its configured constants (ROS/drift/config/*/ros_comm.yaml) *)
Inductive speed_sensor :=
| FourWheels (radius : R)          (** AddDifferentialDriveVelocitySubscriber(topic, radius) *)
| FetchWheels (radius : R)         (** AddDifferentialDriveLinearVelocitySubscriber_Fetch *)
| Twist                            (** AddVelocitySubscriber *)
| TwistCov                         (** AddVelocityWithCovarianceSubscriber *)
| OdomSource (t : V3) (q : quat)   (** AddOdom2VelocityCallback *)
| LegSensors.                      (** AddMiniCheetahKinematicsSubscriber *)
Record nprogram := mkNP { np_est : config; np_sensor : speed_sensor; np_pose_rate : R; np_path_rate : R }.
(** ROS/drift/examples/fetch.cpp:40-87, girona500.cpp:38-80, husky.cpp:40-99, husky_odom.cpp:40-106,
    mini_cheetah.cpp:38-100, neya.cpp:38-97 with config/<name>/ros_comm.yaml *)
Definition fetch_node : nprogram := mkNP fetch (FetchWheels 0.06033) 1000 100.
Definition girona500_node : nprogram := mkNP girona500 Twist 1000 100.
Definition husky_node : nprogram := mkNP husky (FourWheels 0.1580) 1000 100.
Definition husky_odom_node : nprogram := mkNP husky_odom (OdomSource (v3 0 0 0) (mkQ 1 0 0 0)) 1000 100.
Definition mini_cheetah_node : nprogram := mkNP mini_cheetah LegSensors 1000 100.
Definition neya_node : nprogram := mkNP neya TwistCov 1000 100.
Definition nodes : list nprogram := [fetch_node; girona500_node; husky_node; husky_odom_node; mini_cheetah_node; neya_node].

(** the messages *)
Inductive rosmsg :=
| MImu (m : imu_msg)
| MJoint (m : js_msg)
| MTwist (s : stamp) (v : V3)
| MTwistCov (s : stamp) (v : V3) (cov : list R)
| MOdom (m : odom_msg)
| MLegs (s : stamp) (contacts : list bool) (m : js_msg).

(** one callback: what it pushes, and the new state of the odometry subscriber; messages of
    topics the program does not subscribe to are not delivered *)
Definition callback (sn : speed_sensor) (o : odom_sub) (m : rosmsg) : res (odom_sub * list op) :=
  match m, sn with
  | MImu m, _ => let* q := IMUCallback m [] in Ok (o, map OImu q)
  | MJoint m, FourWheels r => let* q := DifferentialEncoder2VelocityCallback m r [] in Ok (o, map (OVel 0) q)
  | MJoint m, FetchWheels r => let* q := DifferentialEncoder2LinearVelocityCallback_Fetch m r [] in Ok (o, map (OVel 0) q)
  | MTwist s v, Twist => Ok (o, map (OVel 0) (VelocityCallback s v []))
  | MTwistCov s v c, TwistCov => Ok (o, map (OVel 0) (VelocityWithCovarianceCallback s v c []))
  | MOdom m, OdomSource _ _ =>
    let* o := Odom2VelocityCallback o m 0 in
    let* q := vec_at (os_q o) 0 in
    Ok (mkOS (os_ext o) (os_prev o) (upd (os_q o) 0 []), map (OVel 0) q)
  | MLegs s c m, LegSensors =>
    let* q := MiniCheetahKinCallBack s c m [] in
    let* l := foldM (fun l x => let* y := leg_view (fst x) (snd x) in Ok (l ++ [y])) [] q in
    Ok (o, map (OLeg 0) l)
  | _, _ => Ok (o, [])
  end.

Record node := mkNode { n_est : est; n_odom : odom_sub; n_pub : pub }.
Definition node_start (P : nprogram) : node :=
  mkNode (build (np_est P))
    (match np_sensor P with OdomSource t q => AddOdom2Velocity ROSSubscriber_odom t q | _ => ROSSubscriber_odom end)
    (ROSPublisher [] (np_pose_rate P) (np_path_rate P)).
(** what can happen to a node: a message, an iteration of the main loop, the two steps of the
    pose thread, the path thread, the two steps of the logging thread *)
Inductive nodev := NMsg (m : rosmsg) | NIter (l : list arrivals) | NCheck | NTake | NPath | NLogPop | NLogWrite.
(** the publisher reads the estimator's output queue (husky.cpp:85-93 and its copies) *)
Definition seen (n : node) : pub := pub_set_q (n_pub n) (e_out (n_est n)).
Definition node_step (sn : speed_sensor) (n : node) (v : nodev) : res node :=
  match v with
  | NMsg m =>
    let* (o, ops) := callback sn (n_odom n) m in
    let* e := est_run (n_est n) ops in
    Ok (mkNode e o (n_pub n))
  | NIter l => let* e := prog_step (n_est n) (EIter l) in Ok (mkNode e (n_odom n) (n_pub n))
  | NLogPop => let* e := prog_step (n_est n) ELogPop in Ok (mkNode e (n_odom n) (n_pub n))
  | NLogWrite => let* e := prog_step (n_est n) ELogWrite in Ok (mkNode e (n_odom n) (n_pub n))
  | NCheck => let* p := pub_step (seen n) PCheck in Ok (mkNode (e_set_out (n_est n) (pb_q p)) (n_odom n) p)
  | NTake => let* p := pub_step (seen n) PTake in Ok (mkNode (e_set_out (n_est n) (pb_q p)) (n_odom n) p)
  | NPath => let* p := pub_step (seen n) PPath in Ok (mkNode (e_set_out (n_est n) (pb_q p)) (n_odom n) p)
  end.
Definition node_run (P : nprogram) (vs : list nodev) : res node := foldM (node_step (np_sensor P)) (node_start P) vs.
