(** Model of include/drift/measurement/imu.h, impl/imu_impl.cpp and of the part
    of Eigen::Quaternion the code uses. *)
From Coq Require Import Reals ZArith List Bool Lra.
From Verif Require Import Res Vec3.
Local Open Scope R_scope.

Record quat := mkQ { qw : R; qx : R; qy : R; qz : R }.

(** Eigen::Quaternion::toRotationMatrix (no normalisation is performed). *)
Definition toRotationMatrix (q : quat) : M3 :=
  let tx := 2 * qx q in let ty := 2 * qy q in let tz := 2 * qz q in
  let twx := tx * qw q in let twy := ty * qw q in let twz := tz * qw q in
  let txx := tx * qx q in let txy := ty * qx q in let txz := tz * qx q in
  let tyy := ty * qy q in let tyz := tz * qy q in let tzz := tz * qz q in
  mkM (1 - (tyy + tzz)) (txy - twz) (txz + twy)
      (txy + twz) (1 - (txx + tzz)) (tyz - twx)
      (txz - twy) (tyz + twx) (1 - (txx + tyy)).

(** include/drift/measurement/imu.h:103-105; the header is reduced to its stamp. *)
Record imu := mkImu { i_t : R; i_q : quat; i_w : V3; i_a : V3 }.

(** impl/imu_impl.cpp:15-19 *)
Definition imu_default : imu := mkImu 0 (mkQ 1 0 0 0) vzero vzero.

(** impl/imu_impl.cpp:61-68 [validate_quat]: true = does not throw *)
Definition validate_quat (w x y z : R) : bool :=
  let q_mag := w * w + x * x + y * y + z * z in
  if Rle_dec (1 / 100000) (Rabs (q_mag - 1)) then false else true.

(** impl/imu_impl.cpp:21-29 [set_quaternion]: the object afterwards and the
    exception, if any. *)
Definition set_quaternion (m : imu) (w x y z : R) : imu * option err :=
  if validate_quat w x y z then (mkImu (i_t m) (mkQ w x y z) (i_w m) (i_a m), None)
  else (m, Some Throw).
(** impl/imu_impl.cpp:31-43; measurement.cpp [set_header]: stamp *)
Definition set_angular_velocity (m : imu) (x y z : R) : imu := mkImu (i_t m) (i_q m) (mkV x y z) (i_a m).
Definition set_lin_acc (m : imu) (x y z : R) : imu := mkImu (i_t m) (i_q m) (i_w m) (mkV x y z).
Definition set_stamp (m : imu) (t : R) : imu := mkImu t (i_q m) (i_w m) (i_a m).
(** impl/imu_impl.cpp:45-48 *)
Definition get_rotation_matrix (m : imu) : M3 := toRotationMatrix (i_q m).
