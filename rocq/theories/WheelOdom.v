(** Model of baselines/src/wheel_odometry/wheel_odometry.cpp. *)
From Coq Require Import Reals ZArith List Bool Arith Lia.
From Verif Require Import Res Vec3 Mat LieGroup RobotState Imu Propagation VelCorr ImuFilter Quat Estimator.
Import ListNotations.
Local Open Scope R_scope.

(** baselines/include/wheel_odometry/wheel_odometry.h:48-64; the file is the list of lines
    written (time, position, orientation) *)
Record odom := mkWO { wo_s : rstate; wo_prev : R; wo_last : R; wo_vq : list vmeas; wo_aq : list avmeas;
  wo_logger : bool; wo_rate : R; wo_lines : list (R * V3 * quat) }.
(** wheel_odometry.cpp:22-55; the rate defaults to 10 *)
Definition WheelOdometry (vq : list vmeas) (aq : list avmeas) (logger : bool) (rate : option R) : odom :=
  mkWO RS_default 0 0 vq aq logger (dflt rate 10) [].
Definition wo_set_state (o : odom) (s : rstate) (prev : R) : odom := mkWO s prev (wo_last o) (wo_vq o) (wo_aq o) (wo_logger o) (wo_rate o) (wo_lines o).
Definition wo_set_queues (o : odom) (vq : list vmeas) (aq : list avmeas) : odom := mkWO (wo_s o) (wo_prev o) (wo_last o) vq aq (wo_logger o) (wo_rate o) (wo_lines o).
(** wheel_odometry.cpp:112-129 [Integrate]; Eigen's Ones(5, 5) *)
Definition Integrate (s : rstate) (v_mea w : V3) (dt : R) : res rstate :=
  let* Rm := get_rotation s in
  let* _ := get_velocity s in
  let* p := get_position s in
  let* exp_omega := Gamma_SO3 (dt *s w) 0 in
  let X := mk 5 5 (fun _ _ => 1) in
  let* X := cput X 0 0 (ofM3 (Rm *m exp_omega)) in
  let* X := cput X 0 3 (ofV3 (Rm *v v_mea)) in
  let* X := cput X 0 4 (ofV3 (p +v dt *s (Rm *v v_mea))) in
  let s := set_X s X in
  let* t := get_time s in
  Ok (set_time s (t + dt)).
(** wheel_odometry.cpp:131-143 [LogPose] *)
Definition LogPose (o : odom) : res odom :=
  let* t := get_time (wo_s o) in
  if wo_logger o && log_due (wo_rate o) (t - wo_last o) then
    let* Rm := get_world_rotation (wo_s o) in
    let* p := get_world_position (wo_s o) in
    Ok (mkWO (wo_s o) (wo_prev o) t (wo_vq o) (wo_aq o) (wo_logger o) (wo_rate o) (wo_lines o ++ [(t, p, quat_of_mat Rm)]))
  else Ok o.
(** wheel_odometry.cpp:63-110 [RunOnce]; both queues are locked together, the measurements are never null *)
Definition WO_RunOnce (o : odom) : res odom :=
  match wo_vq o, wo_aq o with
  | m :: vq, a :: aq =>
    let o := wo_set_queues o vq aq in
    let t := vm_t m in
    if Req_EM_T (wo_prev o) 0 then Ok (wo_set_state o (set_time (wo_s o) t) t)
    else
      let dt := t - wo_prev o in
      let* s := Integrate (wo_s o) (vm_v m) (av_w a) dt in
      LogPose (wo_set_state o s t)
  | _, _ => Ok o
  end.
(** what can happen to the object: the two producers push, RunOnce is called *)
Inductive wop := WVel (m : vmeas) | WAng (a : avmeas) | WRun.
Definition wo_step (o : odom) (x : wop) : res odom :=
  match x with
  | WVel m => Ok (wo_set_queues o (wo_vq o ++ [m]) (wo_aq o))
  | WAng a => Ok (wo_set_queues o (wo_vq o) (wo_aq o ++ [a]))
  | WRun => WO_RunOnce o
  end.
Definition wo_run (o : odom) (l : list wop) : res odom := foldM wo_step o l.
