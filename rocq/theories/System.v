(** Model: a gyro filter and an estimator working together, as in the shipped main programs
    with a gyro filter.  The buffer of filtered samples is shared: the filter thread
    (imu_ang_vel_ekf.cpp:370-379) pushes into the queue from which the estimator's IMU
    propagation reads (get_filtered_imu_data_buffer_and_mutex_ptr handed to
    add_imu_propagation).  Here each iteration of the filter thread is one step, and what it
    pushed is moved at once to the estimator's queue; nobody else touches that queue. *)
From Coq Require Import Reals ZArith List Bool.
From Verif Require Import Res Vec3 Mat RobotState Imu Propagation ImuFilter SpecGyro Estimator SpecEst Driver.
Import ListNotations.
Local Open Scope R_scope.

(** what happens to such a program: a sample is delivered to one of the filter's buffers, the
    filter thread does one iteration, or one of the events of Driver.v (a sample pushed
    from elsewhere into the filtered buffer is not part of these programs) *)
Inductive sysev :=
| SGyro (m : imu) | SImu (m : imu) | SAv (a : avmeas)
| SFilter
| SProg (v : event).
Definition sys := (gfilt * est)%type.
(** the filter's results become the estimator's IMU samples *)
Definition hand_over (g : gfilt) (e : est) : res sys :=
  let* e := foldM est_step e (map OImu (gf_out g)) in Ok (gf_set_out g [], e).
Definition sys_step (s : sys) (v : sysev) : res sys :=
  let '(g, e) := s in
  match v with
  | SGyro m => let* g := gf_step g (GGyro m) in Ok (g, e)
  | SImu m => let* g := gf_step g (GImu m) in Ok (g, e)
  | SAv a => let* g := gf_step g (GAv a) in Ok (g, e)
  | SFilter => let* g := gf_step g GRun in hand_over g e
  | SProg v => let* e := prog_step e v in Ok (g, e)
  end.
Definition sys_run (s : sys) (vs : list sysev) : res sys := foldM sys_step s vs.

(** a program: the estimator's configuration, the filter's configuration and its sensors *)
Record fprogram := mkFP { fp_est : config; fp_gyro : gf_cfg; fp_adds : list gadd }.
Definition fp_start (p : fprogram) : sys := (gf_setup (ImuAngVelEKF_config (fp_gyro p)) (fp_adds p), build (fp_est p)).

(** config/fetch_gyro_filter/imu_filter.yaml; ROS/drift/examples/fetch_gyro_filter.cpp:86-103 *)
Definition fetch_gyro_program : fprogram := mkFP fetch_gyro_filter
  (mkGCfg (Some (mkQ 1 0 0 0)) (Some false) None (Some 0%Z) (Some false) (Some 250%Z) (Some (v3 0 0 0)) (Some 0.1) (Some 0.1) (Some 0.1) (Some 0.1) (Some 0.1) (Some 0.1))
  [AGyro; AAv].
(** config/neya_gyro_filter/imu_filter.yaml; ROS/drift/examples/neya_gyro_filter.cpp:72-97 *)
Definition neya_gyro_program : fprogram := mkFP neya_gyro_filter
  (mkGCfg (Some (mkQ 1 0 0 0)) (Some true) (Some 0.1) (Some 1%Z) (Some true) (Some 250%Z) None (Some 0.1) (Some 0.1) (Some 0.01) (Some 0.01) (Some 0.01) (Some 0.01))
  [AGyro; AImu].
(** config/husky_double_imu_filter/imu_filter.yaml; ROS/drift/examples/husky_double_imu_filter.cpp:71-106 *)
Definition husky_double_program : fprogram := mkFP husky_double_imu_filter
  (mkGCfg (Some (mkQ 0 0.7071 (-0.7071) 0)) (Some false) (Some 0.1) (Some 1%Z) (Some false) (Some 250%Z) (Some (v3 0.00134591 (-0.000116899) (-0.000639647)))
     (Some 0.1) (Some 0.1) (Some 0.1) (Some 0.1) (Some 0.1) (Some 0.1))
  [AGyro; AImu].
Definition filter_programs : list fprogram := [fetch_gyro_program; neya_gyro_program; husky_double_program].

(** The fourth program, ROS/drift/examples/husky_gyro_filter.cpp:69-89, uses the other
    constructor through inekf_estimator.cpp [add_imu_ang_vel_ekf]; config/husky_gyro_filter/imu_filter.yaml *)
Definition husky_gyro_cfg : gf_cfg :=
  mkGCfg (Some (mkQ 0 0.7071 (-0.7071) 0)) (Some false) (Some 0.03) (Some 0%Z) (Some false) (Some 250%Z) (Some (v3 0.00124314 (-0.00037725) (-0.00254523)))
     (Some 0.1) (Some 0.1) (Some 0.1) (Some 0.1) (Some 0.1) (Some 0.1).
Definition husky_gyro_start : sys := (ImuAngVelEKF_buffers [] [] husky_gyro_cfg, build husky_gyro_filter).
