(** Model: the main programs shipped in ROS/drift/examples and their configuration files.
    Simplifications: ros::spinOnce and the subscriber / publisher / logging threads are
    events that may happen between (and, through the arrivals, during) iterations of the
    loop; the loop may stop at any time (ros::ok).  YAML comments are left out. *)
From Coq Require Import Reals ZArith List Bool String.
From Verif Require Import Res Vec3 Mat RobotState Inekf Imu Propagation VelCorr LegCorr Estimator SpecEst.
Import ListNotations.
Local Open Scope R_scope.

(** The loop body is the same text in all ten programs: fetch.cpp:105-117,
    fetch_gyro_filter.cpp:121-133, girona500.cpp:99-111, husky.cpp:102-114,
    husky_double_imu_filter.cpp:124-136, husky_gyro_filter.cpp:107-119, husky_odom.cpp:108-120,
    mini_cheetah.cpp:103-115, neya.cpp:100-112, neya_gyro_filter.cpp:116-128 *)
Definition main_iteration (e : est) (l : list arrivals) : res est :=
  if e_enabled e then RunOnce e l
  else
    let* b := BiasInitialized e in
    if b then InitState e l else InitBias e.

(** what happens to the program: an iteration of the loop (with the readings that arrive
    during it), a sensor callback, the publisher taking a state, the two steps of the
    logging thread *)
Inductive event :=
| EIter (l : list arrivals)
| EImu (m : imu)
| EVel (i : nat) (m : vmeas)
| ELeg (i : nat) (m : lmeas)
| ETake
| ELogPop
| ELogWrite.
Definition prog_step (e : est) (v : event) : res est :=
  match v with
  | EIter l => main_iteration e l
  | EImu m => est_step e (OImu m)
  | EVel i m => est_step e (OVel i m)
  | ELeg i m => est_step e (OLeg i m)
  | ETake => est_step e OPopOut
  | ELogPop => est_step e OLogPop
  | ELogWrite => est_step e OLogWrite
  end.
Definition prog_run (e : est) (vs : list event) : res est := foldM prog_step e vs.

(** ** The shipped configurations *)
Definition v3 (x y z : R) : V3 := mkV x y z.
(** ROS/drift/examples/fetch.cpp:76-87; config/fetch/*.yaml *)
Definition fetch : config := mkCfg RightInvariant
  (mkECfg true (Some 0.1) (Some 0.1) (Some 0.1)
     (Some "/media/justin/DATA/result/DRIFT_TRO/fetch//08_origin/InEKF.txt"%string)
     (Some "/media/justin/DATA/result/DRIFT_TRO/fetch//08_origin/InEKF_velocity.txt"%string) (Some 100))
  (mkICfg (Some true) (Some 250%Z) (Some false) (Some (mkQ 1 0 0 0)) (Some 0.1) (Some 0.1) (Some 0.1) (Some 0.1)
     (Some (v3 0 0 0)) (Some (v3 0.24771 (-0.301667) (-0.0150318))) (Some false) None)
  [GVel (mkVCfg (Some 0.1) (Some 0.05) (Some (mkQ 1 0 0 0)) None)].
(** ROS/drift/examples/fetch_gyro_filter.cpp:76-103; config/fetch_gyro_filter/*.yaml (the IMU
    samples are the outputs of the gyro filter) *)
Definition fetch_gyro_filter : config := mkCfg RightInvariant
  (mkECfg true (Some 0.1) (Some 0.1) (Some 0.1)
     (Some "/media/justin/DATA/result/DRIFT_TRO/fetch//08_origin/InEKF_gyro_filter.txt"%string)
     (Some "/media/justin/DATA/result/DRIFT_TRO/fetch//08_origin/InEKF_gyro_filter_velocity.txt"%string) (Some 100))
  (mkICfg (Some true) (Some 250%Z) None (Some (mkQ 1 0 0 0)) (Some 0.1) (Some 0.1) (Some 0.1) (Some 0.1)
     (Some (v3 0 0 0.00009)) (Some (v3 0.231155 (-0.222571) 0.00888084)) (Some false) None)
  [GVel (mkVCfg (Some 0.1) (Some 0.05) (Some (mkQ 1 0 0 0)) None)].
(** ROS/drift/examples/girona500.cpp:68-80; config/girona500/*.yaml *)
Definition girona500 : config := mkCfg RightInvariant
  (mkECfg true (Some 0.1) (Some 0.1) (Some 0.1)
     (Some "/media/justin/DATA/result/DRIFT_TRO/underwater/test.txt"%string)
     (Some "/media/justin/DATA/result/DRIFT_TRO/underwater/test_vel.txt"%string) (Some 100))
  (mkICfg (Some false) (Some 250%Z) (Some false) (Some (mkQ 1 0 0 0)) (Some 0.01) (Some 0.1) (Some 0.1) (Some 0.1)
     (Some (v3 0 0 0)) (Some (v3 0 0 0)) (Some false) (Some (v3 0 0 0)))
  [GVel (mkVCfg (Some 0.1) (Some 0.3) (Some (mkQ 1 0 0 0)) None)].
(** ROS/drift/examples/husky.cpp:71-83; config/husky/*.yaml *)
Definition husky : config := mkCfg RightInvariant
  (mkECfg true (Some 0.1) (Some 0.1) (Some 0.1)
     (Some "/media/justin/DATA/result/DRIFT_TRO/husky/test.txt"%string)
     (Some "/media/justin/DATA/result/DRIFT_TRO/husky/test_velocity.txt"%string) (Some 10))
  (mkICfg (Some true) (Some 250%Z) (Some false) (Some (mkQ 0 0.7071 (-0.7071) 0)) (Some 0.01) (Some 0.5) (Some 0.1) (Some 0.1)
     (Some (v3 0.00104398 0.000137212 (-0.000153058))) (Some (v3 0.453028 (-0.0670238) (-0.00260372))) (Some false) (Some (v3 0 0 0)))
  [GVel (mkVCfg (Some 0.5) (Some 0.3) (Some (mkQ 1 0 0 0)) None)].
(** ROS/drift/examples/husky_double_imu_filter.cpp:82-106; config/husky_double_imu_filter/*.yaml *)
Definition husky_double_imu_filter : config := mkCfg RightInvariant
  (mkECfg true (Some 0.1) (Some 0.1) (Some 0.001)
     (Some "/home/justin/code/drift/log/husky_double_imu_test.txt"%string)
     (Some "/home/justin/code/drift/log/husky_double_imu_vel_log.txt"%string) (Some 10))
  (mkICfg (Some true) (Some 250%Z) (Some false) (Some (mkQ 0 0.7071 (-0.7071) 0)) (Some 0.1) (Some 0.1) (Some 0.1) (Some 0.1)
     (Some (v3 0 0 0)) (Some (v3 0.00286941 (-0.0323794) (-0.00220881))) (Some false) (Some (v3 (-0.075) 0.15 0)))
  [GVel (mkVCfg (Some 0.1) (Some 0.3) (Some (mkQ 1 0 0 0)) None)].
(** ROS/drift/examples/husky_gyro_filter.cpp:69-89; config/husky_gyro_filter/*.yaml *)
Definition husky_gyro_filter : config := mkCfg RightInvariant
  (mkECfg true (Some 0.1) (Some 0.1) (Some 0.001)
     (Some "/home/justin/code/drift/log/husky_gyro_filter.txt"%string)
     (Some "/home/justin/code/drift/log/husky_gyro_filter_vel_log.txt"%string) (Some 10))
  (mkICfg (Some true) (Some 250%Z) (Some false) (Some (mkQ 0 0.7071 (-0.7071) 0)) (Some 0.1) (Some 0.1) (Some 0.1) (Some 0.1)
     (Some (v3 0.00104398 0.000137212 (-0.000153058))) (Some (v3 0.00286941 (-0.0323794) (-0.00220881))) (Some false) (Some (v3 (-0.075) 0.15 0)))
  [GVel (mkVCfg (Some 0.1) (Some 0.3) (Some (mkQ 1 0 0 0)) None)].
(** ROS/drift/examples/husky_odom.cpp:75-89; config/husky_odom/*.yaml *)
Definition husky_odom : config := mkCfg RightInvariant
  (mkECfg true (Some 0.1) (Some 0.1) (Some 0.001)
     (Some "/home/neofelis/Code/drift/log/husky.txt"%string) None (Some 10))
  (mkICfg (Some false) (Some 250%Z) (Some false) (Some (mkQ 0 0.7071 (-0.7071) 0)) (Some 0.1) (Some 0.1) (Some 0.1) (Some 0.1)
     (Some (v3 0.00124314 (-0.00037725) (-0.00254523))) (Some (v3 0.120438 (-0.170559) (-0.00045046))) (Some false) (Some (v3 (-0.075) 0.15 0)))
  [GVel (mkVCfg (Some 0.1) (Some 0.3) (Some (mkQ 1 0 0 0)) None)].
(** ROS/drift/examples/mini_cheetah.cpp:72-85; config/mini_cheetah/*.yaml *)
Definition mini_cheetah : config := mkCfg LeftInvariant
  (mkECfg true (Some 0.1) (Some 0.1) (Some 0.1)
     (Some "/media/justin/DATA/result/DRIFT_TRO/mini_cheetah/test.txt"%string)
     (Some "/media/justin/DATA/result/DRIFT_TRO/mini_cheetah/test.txt"%string) (Some 1000))
  (mkICfg (Some false) (Some 250%Z) (Some false) (Some (mkQ 1 0 0 0)) (Some 0.01) (Some 0.1) (Some 0.1) (Some 0.1)
     (Some (v3 0.00104398 0.000137212 (-0.000153058))) (Some (v3 0.00286941 (-0.0323794) (-0.00220881))) (Some false) None)
  [GLeg (mkLCfg (Some 0.0174533) (Some 0.05) (Some 0.1) (Some 0.05))].
(** ROS/drift/examples/neya.cpp:69-81; config/neya/*.yaml *)
Definition neya : config := mkCfg RightInvariant
  (mkECfg true (Some 0.1) (Some 0.1) (Some 0.1)
     (Some "/media/justin/DATA/result/DRIFT_TRO/neya/test.txt"%string)
     (Some "/media/justin/DATA/result/DRIFT_TRO/neya/test_velocity.txt"%string) (Some 100))
  (mkICfg (Some true) (Some 250%Z) (Some false) (Some (mkQ 0.7071068 0 0 0.7071068)) (Some 0.01) (Some 0.1) (Some 0.5) (Some 0.5)
     (Some (v3 1.57418e-05 (-0.000109696) (-0.000728956))) (Some (v3 0.0638591 (-0.145765) (-0.176106))) (Some false) (Some (v3 0 0 0)))
  [GVel (mkVCfg (Some 0.5) (Some 0.3) (Some (mkQ 1 0 0 0)) (Some 1.00))].
(** ROS/drift/examples/neya_gyro_filter.cpp:83-97; config/neya_gyro_filter/*.yaml (empty priors) *)
Definition neya_gyro_filter : config := mkCfg RightInvariant
  (mkECfg true (Some 0.1) (Some 0.1) (Some 0.001)
     (Some "/media/justin/DATA/result/DRIFT_TRO/neya/follow/InEKF_gyro_filter.txt"%string)
     (Some "/media/justin/DATA/result/DRIFT_TRO/neya/follow/InEKF_gyro_filter_velocity.txt"%string) (Some 100))
  (mkICfg (Some true) (Some 250%Z) (Some false) (Some (mkQ 0.7071068 0 0 0.7071068)) (Some 0.01) (Some 0.1) (Some 0.5) (Some 0.5)
     None None (Some false) (Some (v3 0 0 0)))
  [GVel (mkVCfg (Some 0.5) (Some 0.3) (Some (mkQ 1 0 0 0)) (Some 1.00))].
Definition shipped : list config :=
  [fetch; fetch_gyro_filter; girona500; husky; husky_double_imu_filter; husky_gyro_filter; husky_odom; mini_cheetah; neya; neya_gyro_filter].
