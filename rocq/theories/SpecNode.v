(** Specification vocabulary for the complete ROS nodes (C81). *)
From Coq Require Import Reals ZArith List Bool.
From Verif Require Import Res Vec3 Mat RobotState Imu Propagation VelCorr LegCorr Quat SpecProp Kinematics Estimator SpecEst Driver SpecDriver Ros SpecRos Node.
Import ListNotations.
Local Open Scope R_scope.

(** what arrives in a history *)
Definition messages (vs : list nodev) : list rosmsg := flat_map (fun v => match v with NMsg m => [m] | _ => [] end) vs.
Definition imu_messages (ms : list rosmsg) : list imu_msg := flat_map (fun m => match m with MImu x => [x] | _ => [] end) ms.
Definition odom_messages (ms : list rosmsg) : list odom_msg := flat_map (fun m => match m with MOdom x => [x] | _ => [] end) ms.
(** a well-formed message of a program: an IMU gives no orientation at all or a unit quaternion;
    joint messages have an entry for each wheel or joint; odometry poses are unit quaternions *)
Definition message_ok (sn : speed_sensor) (m : rosmsg) : Prop :=
  match m, sn with
  | MImu m, _ => im_q m = mkQ 0 0 0 0 \/ qnorm2 (im_q m) = 1
  | MJoint m, FourWheels _ => (4 <= length (js_vel m))%nat
  | MOdom m, OdomSource _ _ => qnorm2 (om_q m) = 1
  | MLegs _ c m, LegSensors => (4 <= length c)%nat /\ (12 <= length (js_pos m))%nat /\ (12 <= length (js_vel m))%nat
  | _, _ => True
  end.
Fixpoint rising (l : list R) : Prop := match l with x :: (y :: _) as r => x < y /\ rising r | _ => True end.
(** IMU stamps do not go backwards, odometry stamps go forward *)
Definition messages_ok (sn : speed_sensor) (ms : list rosmsg) : Prop :=
  Forall (message_ok sn) ms /\ sorted (map (fun m => time_of (im_stamp m)) (imu_messages ms)) /\ rising (map (fun m => time_of (om_stamp m)) (odom_messages ms)).
(** the sample an IMU message stands for; without an orientation the identity is used *)
Definition sample_for (m : imu_msg) (x : imu) : Prop :=
  i_t x = time_of (im_stamp m) /\ i_w x = im_w m /\ i_a x = im_a m /\
  (im_q m = mkQ 0 0 0 0 -> i_q x = mkQ 1 0 0 0) /\ (im_q m <> mkQ 0 0 0 0 -> i_q x = im_q m).
(** the velocity readings a message stands for (for odometry see C65) *)
Definition speed_for (sn : speed_sensor) (m : rosmsg) (rs : list vmeas) : Prop :=
  match m, sn with
  | MJoint m, FourWheels radius => exists e0 e1 e2 e3 rest, js_vel m = e0 :: e1 :: e2 :: e3 :: rest /\
      rs = [mkVM (time_of (js_stamp m)) (drive_speed ((e0 + e2) / 2) ((e1 + e3) / 2) radius)]
  | MJoint m, FetchWheels radius => (length (js_vel m) <= 2)%nat /\ rs = [] \/ exists e0 e1 e2 rest, js_vel m = e0 :: e1 :: e2 :: rest /\
      rs = [mkVM (time_of (js_stamp m)) (drive_speed e0 e1 radius)]
  | MTwist s v, Twist => rs = [mkVM (time_of s) v]
  | MTwistCov s v _, TwistCov => rs = [mkVM (time_of s) v]
  | MOdom m, OdomSource _ _ => rs = [] \/ exists v, rs = [mkVM (time_of (om_stamp m)) v]
  | _, _ => rs = []
  end.
(** the leg readings a message stands for *)
Definition legs_for (sn : speed_sensor) (m : rosmsg) (rs : list lmeas) : Prop :=
  match m, sn with
  | MLegs s c _, LegSensors => exists x, rs = [x] /\ lm_t x = time_of s /\ map lo_contact (lm_legs x) = firstn 4 c
  | _, _ => rs = []
  end.
(** the readings delivered between the calls of a history of the estimator *)
Definition vels (os : list op) : list vmeas := flat_map (fun o => match o with OVel _ m => [m] | _ => [] end) os.
Definition legs (os : list op) : list lmeas := flat_map (fun o => match o with OLeg _ m => [m] | _ => [] end) os.
Definition reads {A} (f : rosmsg -> list A -> Prop) (ms : list rosmsg) (rs : list A) : Prop := exists rss, Forall2 f ms rss /\ rs = concat rss.
(** the calls of a history of the estimator are made by iterations of the main loop, with the
    readings that arrive during them; every reading delivered between calls goes to the first
    correction; there is no Clear *)
Definition made_by (vs : list nodev) (o : op) : Prop :=
  match o with OInitState l | ORunOnce l => In (NIter l) vs | OVel i _ | OLeg i _ => i = 0%nat | OClear => False | _ => True end.
(** a usable program: usable estimator configuration, k poses per path pose (k >= 1), an
    odometry mounting that is a rotation *)
Definition sensor_ok (sn : speed_sensor) : Prop := match sn with OdomSource _ q => qnorm2 q = 1 | _ => True end.
Definition program_ok (k : nat) (P : nprogram) : Prop := config_ok (np_est P) /\ ratio_is k (np_pose_rate P) (np_path_rate P) /\ sensor_ok (np_sensor P).
(** the program's first and only correction takes the readings of its second sensor *)
Definition wired (P : nprogram) : Prop :=
  match np_sensor P, f_corrs (np_est P) with LegSensors, [GLeg _] => True | LegSensors, _ => False | _, [GVel _] => True | _, _ => False end.
(** how many iterations of the main loop found an IMU sample waiting *)
Fixpoint busy (sn : speed_sensor) (n : node) (vs : list nodev) : nat :=
  match vs with
  | [] => 0
  | v :: vs =>
    match node_step sn n v with
    | Ok n' => (match v with NIter _ => if waiting_sample (n_est n) then 1 else 0 | _ => 0 end) + busy sn n' vs
    | Fail _ => 0
    end
  end.
