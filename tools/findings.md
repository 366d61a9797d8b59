## 6. Findings (places where the code does not do what its user would expect)

Each is either a `_refuted` theorem (id given) or an observation recorded while modelling.

* SEK3::inverse keeps only the first five columns (C05). get_body_velocity/get_body_position have the opposite sign of the inverse matrix (C45).
* add_aug_state loses the process noise of the older contacts (C09).
* Copies of a RobotState share the column-id integers; lifting a foot changes the ids in states already published (C46).
* del_aug_bias / get_aug_bias use wrong indices except for the first / last one (C48).
* CorrectLeftInvariant tests the wrong convention (inekf.cpp:125) (C47).
* Phi25L / Phi35L use integer divisions that are 0 for slow rotation (C53).
* Calibration removes gravity and the centripetal term in a frame different from the one propagation uses (C43); the same mismatch breaks heading independence for tilted mountings (C70).
* Negative time steps break the covariance's definiteness (C17).
* A calibration window of 0, the default, divides by zero; a negative one never ends (C42).
* The velocity correction can apply a sample from the future after discarding a stale one (C22); the leg correction never skips future samples (C25).
* Published time goes back when a delayed velocity sample is accepted (C29).
* InitState while already enabled would write the bias covariance into contact slots; InitState spins for ever when a correction has no data (C26 excludes the former by the protocol and names the latter as its only failure).
* InitState writes the same diagonal covariance in both conventions, so the two conventions are not equivalent for a rotated start (C57).
* clear() keeps calibration, last_pub_t_, init_count_, the pending log state, the previous IMU sample, t_ and t_prop_ (C30).
* Log files: equal names and "./dir/name" paths collide (C32); InitState's own state is never logged; a state popped before clear may be written to the new file.
* The slip test ignores the covariance it computes, and no code path enables it (C50).
* VelocityCorrection::initialize ignores mounting and scale (C56).
* Gyro filter: a stale head blocks for ever and several IMUs yield duplicate outputs (C38); silent or undefined arrangements (C59); clear() races with its thread and may dereference null (C60); idle iterations add process noise (C62); flat_ground is inverted (C64).
* Wheel odometry: the matrix is built from Ones(5,5) (not a group element), a stamp of 0 is a sentinel, the position update is Euler when turning (C39).
* A default-constructed MiniCheetahKinematics with a contact asserts (C35).
* ROS: short JointState / contact messages are read out of range (C40, C68), zero track width divides by zero (C40), the published covariance is the (orientation, velocity) block (C41), a path rate above the pose rate computes % 0 (C41), path decimation is right for the first 2^31 poses only, the odometry extrinsic is shared by all sources (C66), equal odometry stamps divide by zero (C65), clear between the publisher's empty-test and its pop (C69); the first ROSPublisher constructor's bool parameter shadows the member enable_slip_publisher_ (left uninitialised); the bodies of SlipPublish are commented out.
* Time stamps closer than 500 ns may collide in double (C44).
* init_count_ is an int that is incremented for ever (overflow after 2^31 RunOnce calls); the logging thread and clear() access the log stream without a common lock.
* Translation equivariance is not exact below the exp TOLERANCE threshold (the code switches to a first-order term).
* set_initial_state stores the raw rate of the first IMU sample (IMU axes, bias included, imu_propagation.cpp:512) as the body rate and nothing updates it later; the initial velocity of a legged robot is computed from it, so a parked legged robot with a gyro bias starts with a non-zero velocity (C82 needs the hypothesis that it does not).
* RobotState(SEK3&) copies the matrix as it is, but SEK3 stores (R, p, v) and RobotState (R, v, p): position and velocity change places (C85_sek3_constructor_refuted); with landmark columns it makes three biases per vector column (C85_sek3_biases_refuted).
* get/set_gyroscope_bias_covariance and get/set_accelerometer_bias_covariance use rows 9 and 12 whatever the number of landmarks (C85_bias_covariance_getter_refuted); add_aug_cov appends behind the biases (C85_add_aug_cov_refuted).
* The shipped mini_cheetah configuration gives the pose log and the velocity log the same file name (C32_mini_cheetah_refuted).
* fetch_gyro_filter's yaml key `use_imu_ori_est_init_bias` is never read by any code; shipped mounting quaternions such as [0, 0.7071, -0.7071, 0] are not exactly unit.
* husky_double_imu_filter stalls for ever once its second IMU is more than 0.1 s ahead (C75_two_imus_blocked_refuted); husky_gyro_filter reads the uninitialised init_bias_size_ (C74_husky_gyro_filter_refuted) and out-of-order samples reach the estimator (C75_out_of_order_refuted).
