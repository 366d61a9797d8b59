(** Model of ROS/drift/src/communication/ros_subscriber.cpp (the message callbacks) and
    ros_publisher.cpp.  Queues are passed in and returned; locking a queue's mutex around the
    push makes each callback one step on its queue.  Message synchronisation, topic names,
    frame ids and sequence numbers of measurements are not modelled. *)
From Coq Require Import Reals ZArith List Bool Arith Lia.
From Verif Require Import Res Vec3 Mat MatInv LieGroup RobotState Imu Propagation VelCorr LegCorr ImuFilter Quat Kinematics.
Import ListNotations.
Local Open Scope R_scope.

(** ros::Time: seconds and nanoseconds (both uint32); header.stamp.sec + header.stamp.nsec / 1000000000.0
    in exact arithmetic (Stamp.v treats the double computation) *)
Record stamp := mkStamp { sec : Z; nsec : Z }.
Definition time_of (s : stamp) : R := IZR (sec s) + IZR (nsec s) / 1000000000.
(** std::vector::operator[]: reading past the end is undefined *)
Definition vec_at {A} (l : list A) (i : nat) : res A := of_opt (nth_error l i) BadRead.

(** sensor_msgs::Imu *)
Record imu_msg := mkImuMsg { im_stamp : stamp; im_w : V3; im_a : V3; im_q : quat }.
Definition quat_norm (q : quat) : R := sqrt (qw q * qw q + qx q * qx q + qy q * qy q + qz q * qz q).
(** ros_subscriber.cpp:337-345, 613-621: an exception of set_quaternion leaves the callback before the push *)
Definition put_orientation (m : imu) (q : quat) : res imu :=
  if Req_EM_T (quat_norm q) 0 then Ok m
  else match set_quaternion m (qw q) (qx q) (qy q) (qz q) with (m, None) => Ok m | (_, Some e) => Fail e end.
(** ros_subscriber.cpp:316-350 *)
Definition IMUCallback (msg : imu_msg) (q : list imu) : res (list imu) :=
  let m := set_stamp imu_default (time_of (im_stamp msg)) in
  let m := set_angular_velocity m (v0 (im_w msg)) (v1 (im_w msg)) (v2 (im_w msg)) in
  let m := set_lin_acc m (v0 (im_a msg)) (v1 (im_a msg)) (v2 (im_a msg)) in
  let* m := put_orientation m (im_q msg) in
  Ok (q ++ [m]).
(** ros_subscriber.cpp:589-627; the second message is the gyro offset *)
Definition FetchIMUCallBack (msg : imu_msg) (offset : V3) (q : list imu) : res (list imu) :=
  let m := set_stamp imu_default (time_of (im_stamp msg)) in
  let m := set_angular_velocity m (v0 (im_w msg) + v0 offset) (v1 (im_w msg) + v1 offset) (v2 (im_w msg) + v2 offset) in
  let m := set_lin_acc m (v0 (im_a msg)) (v1 (im_a msg)) (v2 (im_a msg)) in
  let* m := put_orientation m (im_q msg) in
  Ok (q ++ [m]).
(** geometry_msgs::TwistStamped and TwistWithCovarianceStamped (the covariance is ignored):
    ros_subscriber.cpp:352-371 and 373-393 *)
Definition VelocityCallback (s : stamp) (linear : V3) (q : list vmeas) : list vmeas :=
  q ++ [mkVM (time_of s) (mkV (v0 linear) (v1 linear) (v2 linear))].
Definition VelocityWithCovarianceCallback (s : stamp) (linear : V3) (cov : list R) (q : list vmeas) : list vmeas :=
  q ++ [mkVM (time_of s) (mkV (v0 linear) (v1 linear) (v2 linear))].
(** sensor_msgs::JointState *)
Record js_msg := mkJS { js_stamp : stamp; js_pos : list R; js_vel : list R }.
(** ros_subscriber.cpp:396-421: no check of the size *)
Definition DifferentialEncoder2VelocityCallback (msg : js_msg) (radius : R) (q : list vmeas) : res (list vmeas) :=
  let* e1 := vec_at (js_vel msg) 1 in
  let* e3 := vec_at (js_vel msg) 3 in
  let vr := (e1 + e3) / 2 * radius in
  let* e0 := vec_at (js_vel msg) 0 in
  let* e2 := vec_at (js_vel msg) 2 in
  let vl := (e0 + e2) / 2 * radius in
  let vx := (vr + vl) / 2 in
  Ok (q ++ [mkVM (time_of (js_stamp msg)) (mkV vx 0 0)]).
(** ros_subscriber.cpp:423-465 *)
Definition DifferentialEncoder2VelocityCallback_w (msg : js_msg) (radius track : R) (q : list vmeas) (aq : list avmeas) : res (list vmeas * list avmeas) :=
  let* e1 := vec_at (js_vel msg) 1 in
  let* e3 := vec_at (js_vel msg) 3 in
  let vr := (e1 + e3) / 2 * radius in
  let* e0 := vec_at (js_vel msg) 0 in
  let* e2 := vec_at (js_vel msg) 2 in
  let vl := (e0 + e2) / 2 * radius in
  let vx := (vr + vl) / 2 in
  let* _ := check (if Req_EM_T track 0 then false else true) DivZero in
  let omega_z := (vr - vl) / track in
  let t := time_of (js_stamp msg) in
  Ok (q ++ [mkVM t (mkV vx 0 0)], aq ++ [mkAV t (mkV 0 0 omega_z)]).
(** ros_subscriber.cpp:467-496: messages with at most two entries are dropped *)
Definition DifferentialEncoder2LinearVelocityCallback_Fetch (msg : js_msg) (radius : R) (q : list vmeas) : res (list vmeas) :=
  if Nat.leb (length (js_vel msg)) 2 then Ok q else
  let* e1 := vec_at (js_vel msg) 1 in
  let vr := e1 * radius in
  let* e0 := vec_at (js_vel msg) 0 in
  let vl := e0 * radius in
  let vx := (vr + vl) / 2 in
  Ok (q ++ [mkVM (time_of (js_stamp msg)) (mkV vx 0 0)]).
(** ros_subscriber.cpp:498-543 *)
Definition DifferentialEncoder2VelocityCallback_Fetch (msg : js_msg) (radius track : R) (q : list vmeas) (aq : list avmeas) : res (list vmeas * list avmeas) :=
  if Nat.leb (length (js_vel msg)) 2 then Ok (q, aq) else
  let* e1 := vec_at (js_vel msg) 1 in
  let vr := e1 * radius in
  let* e0 := vec_at (js_vel msg) 0 in
  let vl := e0 * radius in
  let vx := (vr + vl) / 2 in
  let* _ := check (if Req_EM_T track 0 then false else true) DivZero in
  let omega_z := (vr - vl) / track in
  let t := time_of (js_stamp msg) in
  Ok (q ++ [mkVM t (mkV vx 0 0)], aq ++ [mkAV t (mkV 0 0 omega_z)]).
(** ros_subscriber.cpp:545-587: the time is the contact message's *)
Fixpoint read_n {A} (l : list A) (n : nat) : res (list A) :=
  match n with O => Ok [] | S n => let* r := read_n l n in let* x := vec_at l n in Ok (r ++ [x]) end.
Definition MiniCheetahKinCallBack (cstamp : stamp) (contacts : list bool) (msg : js_msg) (q : list (R * mck)) : res (list (R * mck)) :=
  let k := MCK_default in
  let* ct := read_n contacts 4 in
  let k := set_contact k ct in
  let* js := read_n (js_pos msg) 12 in
  let k := set_joint_state k js in
  let* jv := read_n (js_vel msg) 12 in
  let k := set_joint_state_velocity k jv in
  Ok (q ++ [(time_of cstamp, k)]).

(** ** odometry to velocity *)
(** odom.h:68-71 and ros_subscriber.cpp:252-259: a 4x4 matrix from a quaternion and a translation *)
Definition transform (A : M3) (p : V3) : mat :=
  mk 4 4 (fun i j => if Nat.ltb i 3 then (if Nat.ltb j 3 then mget A i j else vget p i) else if Nat.eqb j 3 then 1 else 0).
(** Eigen's unsupported MatrixFunctions log() of a rigid motion, modelled by the principal
    logarithm in closed form (rotation angle below pi; the angle pi, where the principal
    logarithm does not exist, divides by sin pi). *)
Definition log_angle (A : M3) : R := acos ((m00 A + m11 A + m22 A - 1) / 2).
Definition log_rot (A : M3) : V3 :=
  let th := log_angle A in
  if Req_EM_T th 0 then vzero
  else (th / (2 * sin th)) *s mkV (m21 A - m12 A) (m02 A - m20 A) (m10 A - m01 A).
Definition left_jacobian_inverse (w : V3) (th : R) : M3 :=
  if Req_EM_T th 0 then mid
  else mid +m (- (1 / 2)) *ms skew w +m (1 / (th * th) - (1 + cos th) / (2 * th * sin th)) *ms (skew w *m skew w).
Definition log4 (T : mat) : mat :=
  let A := getM3 T 0 0 in
  let w := log_rot A in
  let u := left_jacobian_inverse w (log_angle A) *v getV3 T 0 3 in
  mk 4 4 (fun i j => if Nat.ltb i 3 then (if Nat.ltb j 3 then mget (skew w) i j else vget u i) else 0).
(** ros_subscriber.h:420-432: one extrinsic matrix for all sources; per source the previous
    pose (time, transformation) and the velocity queue.  The extrinsic is not initialised
    before the first source is added. *)
Record odom_sub := mkOS { os_ext : option mat; os_prev : list (option (R * mat)); os_q : list (list vmeas) }.
Definition ROSSubscriber_odom : odom_sub := mkOS None [] [].
(** ros_subscriber.cpp:240-279 [AddOdom2VelocityCallback]; sizes of the two vectors taken as given *)
Definition AddOdom2Velocity (o : odom_sub) (t : V3) (q : quat) : odom_sub :=
  mkOS (Some (transform (toRotationMatrix q) t)) (os_prev o ++ [None]) (os_q o ++ [[]]).
(** nav_msgs::Odometry *)
Record odom_msg := mkOM { om_stamp : stamp; om_p : V3; om_q : quat }.
(** ros_subscriber.cpp:629-685 [Odom2VelocityCallback]; stamp.toSec() and the sum are both time_of *)
Definition Odom2VelocityCallback (o : odom_sub) (msg : odom_msg) (id : nat) : res odom_sub :=
  let curr := transform (toRotationMatrix (om_q msg)) (om_p msg) in
  let curr_time := time_of (om_stamp msg) in
  let* prev := vec_at (os_prev o) id in
  let o' := mkOS (os_ext o) (upd (os_prev o) id (Some (curr_time, curr))) (os_q o) in
  match prev with
  | None => Ok o'
  | Some (prev_time, prev_transformation) =>
    let time_diff := curr_time - prev_time in
    let* E := of_opt (os_ext o) BadRead in
    let* Ei := cinv E in
    let* Pi := cinv prev_transformation in
    let* M := cmul Ei Pi in
    let* M := cmul M curr in
    let* M := cmul M E in
    let tw := log4 M in
    let* _ := check (if Req_EM_T time_diff 0 then false else true) DivZero in
    let v := mkV (ent tw 0 3 / time_diff) (ent tw 1 3 / time_diff) (ent tw 2 3 / time_diff) in
    let* q := vec_at (os_q o) id in
    Ok (mkOS (os_ext o) (os_prev o') (upd (os_q o) id (q ++ [mkVM curr_time v])))
  end.

(** the sources are added and messages of source [id] arrive, in any order *)
Inductive osop := OSAdd (t : V3) (q : quat) | OSMsg (m : odom_msg) (id : nat).
Definition os_step (o : odom_sub) (x : osop) : res odom_sub :=
  match x with OSAdd t q => Ok (AddOdom2Velocity o t q) | OSMsg m id => Odom2VelocityCallback o m id end.
Definition os_run (o : odom_sub) (l : list osop) : res odom_sub := foldM os_step o l.

(** ** the publisher *)
(** geometry_msgs::PoseWithCovarianceStamped: seq, time, position, orientation, the 36 numbers
    in row-major order; a path is a list of (seq, time, position, orientation) *)
Record pose_msg := mkPM { pm_seq : Z; pm_t : R; pm_p : V3; pm_q : quat; pm_cov : list R }.
Record path_pose := mkPP { pp_seq : Z; pp_t : R; pp_p : V3; pp_q : quat }.
Record path_msg := mkPath { pa_seq : Z; pa_t : R; pa_poses : list path_pose }.
(** ros_publisher.h:86-118; [pb_took]: the pose thread has seen a non-empty queue and is about
    to take its front (ros_publisher.cpp:97 to 103); [pb_sent], [pb_paths] are what was published *)
Record pub := mkPub { pb_q : list rstate; pb_took : bool; pb_first : V3; pb_seq : Z; pb_pose_rate : R; pb_path_rate : R;
  pb_poses : list path_pose; pb_path_seq : Z; pb_sent : list pose_msg; pb_paths : list path_msg }.
(** ros_publisher.cpp:43-75 *)
Definition ROSPublisher (q : list rstate) (pose_rate path_rate : R) : pub := mkPub q false vzero 0 pose_rate path_rate [] 0 [] [].
(** uint32_t increment; conversion of a uint32_t to int; conversion of a double to int (undefined out of range) *)
Definition u32_succ (n : Z) : Z := ((n + 1) mod 4294967296)%Z.
Definition int_of_u32 (n : Z) : Z := (if n <? 2147483648 then n else n - 4294967296)%Z.
Definition trunc (x : R) : Z := if Rle_dec 0 x then (up x - 1)%Z else (- (up (- x) - 1))%Z.
Definition int_of_double (x : R) : res Z :=
  let z := trunc x in if ((-2147483648 <=? z) && (z <=? 2147483647))%Z then Ok z else Fail IntOverflow.
(** ros_publisher.cpp:97-99 *)
Definition PoseCheck (p : pub) : pub :=
  mkPub (pb_q p) (match pb_q p with [] => false | _ => true end) (pb_first p) (pb_seq p) (pb_pose_rate p) (pb_path_rate p) (pb_poses p) (pb_path_seq p) (pb_sent p) (pb_paths p).
Definition cov36 (P : mat) : res (list R) :=
  foldM (fun acc k => let i := Nat.div k 6 in let j := Nat.modulo k 6 in
    if (Nat.ltb i (nr P) && Nat.ltb j (nc P))%bool then Ok (acc ++ [ent P i j]) else Fail EigenAssert) [] (seq 0 36).
(** ros_publisher.cpp:101-154; % by zero and division by a zero rate are undefined *)
Definition PoseTake (p : pub) : res pub :=
  if pb_took p then
    match pb_q p with
    | [] => Fail EmptyQueue
    | s :: q =>
      let* t := get_time s in
      let* pos := get_world_position s in
      let* Rm := get_world_rotation s in
      let qt := quat_of_mat Rm in
      let* c := cov36 (sP s) in
      let msg := mkPM (pb_seq p) t (pos -v pb_first p) qt c in
      let n := u32_succ (pb_seq p) in
      let* _ := check (if Req_EM_T (pb_path_rate p) 0 then false else true) DivZero in
      let* skip := int_of_double (pb_pose_rate p / pb_path_rate p) in
      let* _ := check (negb (skip =? 0)%Z) DivZero in
      let poses := if (Z.rem (int_of_u32 n) skip =? 0)%Z then pb_poses p ++ [mkPP (pm_seq msg) t (pos -v pb_first p) qt] else pb_poses p in
      Ok (mkPub q false (pb_first p) n (pb_pose_rate p) (pb_path_rate p) poses (pb_path_seq p) (pb_sent p ++ [msg]) (pb_paths p))
    end
  else Ok p.
(** ros_publisher.cpp:171-185 *)
Definition PathPublish (p : pub) : pub :=
  match rev (pb_poses p) with
  | [] => p
  | l :: _ => mkPub (pb_q p) (pb_took p) (pb_first p) (pb_seq p) (pb_pose_rate p) (pb_path_rate p) (pb_poses p) (u32_succ (pb_path_seq p)) (pb_sent p)
                (pb_paths p ++ [mkPath (pb_path_seq p) (pp_t l) (pb_poses p)])
  end.
(** everything that can happen: the estimator pushes a state or clears the queue
    (inekf_estimator.cpp:305-309), the pose thread checks and takes, the path thread publishes *)
Inductive pop_ := PPush (s : rstate) | PClear | PCheck | PTake | PPath.
Definition pub_set_q (p : pub) (q : list rstate) : pub :=
  mkPub q (pb_took p) (pb_first p) (pb_seq p) (pb_pose_rate p) (pb_path_rate p) (pb_poses p) (pb_path_seq p) (pb_sent p) (pb_paths p).
Definition pub_step (p : pub) (o : pop_) : res pub :=
  match o with
  | PPush s => Ok (pub_set_q p (pb_q p ++ [s]))
  | PClear => Ok (pub_set_q p [])
  | PCheck => Ok (if pb_took p then p else PoseCheck p)
  | PTake => PoseTake p
  | PPath => Ok (PathPublish p)
  end.
Definition pub_run (p : pub) (l : list pop_) : res pub := foldM pub_step p l.
