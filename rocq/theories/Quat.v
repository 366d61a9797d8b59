(** Model of the part of Eigen that converts a 3x3 matrix into a quaternion
    (Eigen::Quaterniond(Matrix3d), used by src/estimator/inekf_estimator.cpp:150,
    ROS/drift/src/communication/ros_publisher.cpp:108). *)
From Coq Require Import Reals ZArith List Bool Lra.
From Verif Require Import Res Vec3 Imu.
Local Open Scope R_scope.

(** Eigen quaternionbase_assign_impl<Matrix,3,3>: the largest-diagonal branch for axis i,
    with j, k the next two axes; result (q_i, q_j, q_k, q_w). *)
Definition quat_branch (M : M3) (i j k : nat) : R * R * R * R :=
  let t := sqrt (mget M i i - mget M j j - mget M k k + 1) in
  let u := (1 / 2) / t in
  ((1 / 2) * t, (mget M j i + mget M i j) * u, (mget M k i + mget M i k) * u, (mget M k j - mget M j k) * u).
Definition quat_of_mat (M : M3) : quat :=
  let t := mget M 0 0 + mget M 1 1 + mget M 2 2 in
  if Rlt_dec 0 t then
    let t := sqrt (t + 1) in
    let u := (1 / 2) / t in
    mkQ ((1 / 2) * t) ((mget M 2 1 - mget M 1 2) * u) ((mget M 0 2 - mget M 2 0) * u) ((mget M 1 0 - mget M 0 1) * u)
  else
    let i := if Rlt_dec (mget M 0 0) (mget M 1 1) then 1%nat else 0%nat in
    let i := if Rlt_dec (mget M i i) (mget M 2 2) then 2%nat else i in
    match i with
    | 0%nat => let '(a, b, c, w) := quat_branch M 0 1 2 in mkQ w a b c
    | 1%nat => let '(a, b, c, w) := quat_branch M 1 2 0 in mkQ w c a b
    | _ => let '(a, b, c, w) := quat_branch M 2 0 1 in mkQ w b c a
    end.
