{"id": "C01", "title": "Rotation exponentials are rotations", "statement": "For every rotation vector w, Exp_SO3(w) is a rotation (orthogonal, determinant +1), Exp_SO3(-w) is its inverse, the rotation fixes w, and the left and right Jacobians satisfy J_r(w) = J_l(w)^T = J_l(-w) and skew(w) J_l(w) = Exp_SO3(w) - I (the last one outside the small-angle cut-off, and up to a bound inside it).", "quantifier": "all w in R^3, including both sides of the small-angle threshold", "why_tests_cant": "uncountably many w; a test samples a few and compares to a tolerance", "anchors": ["src/math/lie_group.cpp:skew", "src/math/lie_group.cpp:Gamma_SO3", "src/math/lie_group.cpp:Exp_SO3", "src/math/lie_group.cpp:LeftJacobian_SO3", "src/math/lie_group.cpp:RightJacobian_SO3"]}
{"id": "C02", "title": "Gamma_SO3 is the m-th Gamma series", "statement": "Gamma_SO3(w, m) equals the convergent series sum_n skew(w)^n/(n+m)! for every w above the small-angle threshold and every order m for which the code does not overflow; below the threshold it is within an explicit bound of it; a negative m is rejected and an m whose factorial does not fit a long is undefined behaviour.", "quantifier": "all w, all integer m", "why_tests_cant": "infinite domain, and the general-m branch (m >= 3) is never exercised by tests", "anchors": ["src/math/lie_group.cpp:Gamma_SO3", "src/math/lie_group.cpp:factorial"]}
{"id": "C03", "title": "Exp_SEK3 is the exponential map of SE_K(3)", "statement": "For every K and tangent vector of size 3+3K, Exp_SEK3 returns a (3+K)x(3+K) element of SE_K(3), the exponential of -v is its inverse, its columns are J_l(w) applied to each 3-block, and above the threshold it equals the matrix exponential series of the hat matrix.", "quantifier": "all K >= 0 and all tangent vectors", "why_tests_cant": "all sizes and real values at once", "anchors": ["src/math/lie_group.cpp:Exp_SEK3"]}
{"id": "C04", "title": "Adjoint_SEK3 is the adjoint representation", "statement": "For every X, Y in SE_K(3): Ad(XY) = Ad(X)Ad(Y), Ad(X^-1) = Ad(X)^-1, and X hat(v) X^-1 = hat(Ad(X) v) for every tangent v, so covariances can be moved between left and right error conventions.", "quantifier": "all K, all group elements, all tangent vectors", "why_tests_cant": "all sizes and real values", "anchors": ["src/math/lie_group.cpp:Adjoint_SEK3"]}
{"id": "C05", "title": "Group inverse of the state matrix", "statement": "For every state whose matrix is in SE_K(3), with any number of augmented columns, get_Xinv() is the inverse of get_X(); composing and inverting SEK3 objects obeys the group laws.", "quantifier": "all numbers of augmented columns", "why_tests_cant": "unit tests use the 5x5 case only; the inverse must hold after any contact history", "anchors": ["src/state/robot_state.cpp:get_Xinv", "src/math/se_k_3.cpp:SEK3::inverse", "src/math/se_k_3.cpp:SEK3::operator*"]}
{"id": "C06", "title": "State, covariance and noise dimensions stay consistent", "statement": "After every sequence of adding and deleting augmented states, dim(P) = dim(Qc) = 3 dim(X) + dim(Theta) - 6, the map from columns to ids has dim(X) entries, and no matrix access is out of range.", "quantifier": "all histories of add_aug_state / del_aug_state with valid indices", "why_tests_cant": "unbounded histories", "anchors": ["src/state/robot_state.cpp:add_aug_state", "src/state/robot_state.cpp:del_aug_state", "src/state/robot_state.cpp:RemoveRowAndColumn"]}
{"id": "C07", "title": "Column ids keep designating their own contact", "statement": "After any history of adds and deletes, every live landmark id handed out by add_aug_state still names the column and the 3x3 covariance block of the same landmark, distinct ids name distinct columns, and every value read through it equals the value stored for that landmark (possibly after other landmarks were deleted).", "quantifier": "all interleavings of adds and deletes", "why_tests_cant": "index shifting errors only show up after particular deletion orders", "anchors": ["src/state/robot_state.cpp:add_aug_state", "src/state/robot_state.cpp:del_aug_state"]}
{"id": "C08", "title": "Deleting a landmark marginalises exactly it", "statement": "del_aug_state removes exactly the landmark's column of X and its three rows and columns of P and Qc; every other entry is unchanged (re-indexed), so adding a landmark and deleting it again restores X, P, and every remaining contact's data.", "quantifier": "all states with any number of augmented columns and any valid index", "why_tests_cant": "index arithmetic over all sizes", "anchors": ["src/state/robot_state.cpp:add_aug_state", "src/state/robot_state.cpp:del_aug_state", "src/state/robot_state.cpp:RemoveRowAndColumn"]}
{"id": "C09", "title": "Every active contact keeps its process noise", "statement": "After any sequence of add_aug_state calls each active contact's 3x3 block of the continuous noise matrix Qc equals the contact noise covariance it was added with, and the bias noise is where the propagation step reads it.", "quantifier": "all histories with any number of contacts", "why_tests_cant": "needs two or more simultaneous contacts and an inspection of a private matrix", "anchors": ["src/state/robot_state.cpp:add_aug_state", "src/filter/inekf/propagation/imu_propagation.cpp:DiscreteNoiseMatrix"]}
{"id": "C10", "title": "Corrections keep the state on the group", "statement": "Every measurement update (right- and left-invariant) maps a state in SE_K(3) to a state in SE_K(3) with the same number of columns, whatever the observation matrix, noise and innovation.", "quantifier": "all states, all H, Z, N for which the innovation covariance is invertible, all K", "why_tests_cant": "all reals and sizes", "anchors": ["src/filter/inekf/inekf.cpp:CorrectRightInvariant", "src/filter/inekf/inekf.cpp:CorrectLeftInvariant"]}
{"id": "C11", "title": "Corrections keep the covariance symmetric positive semi-definite", "statement": "Every measurement update maps a symmetric positive semi-definite covariance to a symmetric positive semi-definite one; with positive definite measurement noise the innovation covariance is always invertible so the update cannot fail.", "quantifier": "all P sym. PSD, all H, N sym. PD, both error types, bias estimation on and off", "why_tests_cant": "matrix inequality over all reals", "anchors": ["src/filter/inekf/inekf.cpp:CorrectRightInvariant", "src/filter/inekf/inekf.cpp:CorrectLeftInvariant"]}
{"id": "C12", "title": "A correction never increases uncertainty", "statement": "In the covariance the update actually uses, the posterior covariance is at most the prior in the Loewner order: no measurement increases the variance of any linear functional of the error (apart from the deliberately reset yaw gyro-bias entry).", "quantifier": "all P, H, N", "why_tests_cant": "inequality over all reals", "anchors": ["src/filter/inekf/inekf.cpp:CorrectRightInvariant"]}
{"id": "C13", "title": "Right-invariant correction does not depend on the error convention", "statement": "CorrectRightInvariant run on a covariance in left-invariant coordinates gives the same mean, and the adjoint-transformed covariance, as run on the corresponding right-invariant covariance.", "quantifier": "all states and measurements", "why_tests_cant": "coordinate-equivalence over all reals", "anchors": ["src/filter/inekf/inekf.cpp:CorrectRightInvariant"]}
{"id": "C14", "title": "Disabled bias estimation freezes the biases", "statement": "With imu bias estimation disabled, corrections with observation matrices that do not observe the bias leave all biases exactly unchanged for ever, and the z gyro bias is never changed by any right-invariant correction, enabled or not.", "quantifier": "all sequences of corrections", "why_tests_cant": "unbounded histories, exact equality", "anchors": ["src/filter/inekf/inekf.cpp:CorrectRightInvariant", "src/filter/inekf/inekf.cpp:get_enable_imu_bias_update"]}
{"id": "C15", "title": "Zero innovation leaves the mean unchanged", "statement": "When the measurement agrees exactly with the state (innovation zero) a correction leaves rotation, velocity, position, contacts and biases exactly unchanged.", "quantifier": "all states, H, N", "why_tests_cant": "exact equality over all reals", "anchors": ["src/filter/inekf/inekf.cpp:CorrectRightInvariant", "src/filter/inekf/inekf.cpp:CorrectLeftInvariant", "src/filter/inekf/correction/velocity_correction.cpp:Correct"]}
{"id": "C16", "title": "Propagation keeps the state on the group", "statement": "Every IMU propagation step maps a state in SE_K(3) to SE_K(3), does not move augmented contact columns, and leaves the biases unchanged.", "quantifier": "all states, measurements and time steps (also negative or zero)", "why_tests_cant": "all reals", "anchors": ["src/filter/inekf/propagation/imu_propagation.cpp:Propagate"]}
{"id": "C17", "title": "Propagation keeps the covariance symmetric positive semi-definite", "statement": "For a non-negative time step propagation maps a sym. PSD covariance to a sym. PSD covariance; this cannot be promised when time goes backwards.", "quantifier": "all states and measurements, dt >= 0", "why_tests_cant": "all reals", "anchors": ["src/filter/inekf/propagation/imu_propagation.cpp:Propagate", "src/filter/inekf/propagation/imu_propagation.cpp:DiscreteNoiseMatrix"]}
{"id": "C18", "title": "Propagation is the exact strapdown integral", "statement": "For constant body rates and accelerations the propagated rotation, velocity and position are the exact solution of the strapdown equations; two steps of dt1 and dt2 equal one step of dt1+dt2 (no discretisation error), outside the small-angle cut-off.", "quantifier": "all inputs and time steps", "why_tests_cant": "exact equality over all reals", "anchors": ["src/filter/inekf/propagation/imu_propagation.cpp:Propagate", "src/math/lie_group.cpp:Gamma_SO3"]}
{"id": "C19", "title": "Log-linear error propagation", "statement": "With biases known, the invariant error between two trajectories driven by the same IMU input evolves exactly by the linear transition matrix used for the covariance (right-invariant in world frame), for every error size and with any number of contact columns.", "quantifier": "all pairs of states, inputs, time steps", "why_tests_cant": "the defining theorem of the filter; cannot be tested for all errors", "anchors": ["src/filter/inekf/propagation/imu_propagation.cpp:StateTransitionMatrix", "src/filter/inekf/propagation/imu_propagation.cpp:Propagate"]}
{"id": "C20", "title": "Each IMU sample is integrated exactly once, over the right interval", "statement": "Over any run, the samples integrated are exactly the delivered samples in order, each once, with one sample of latency; the sum of the time steps telescopes to (time of last integrated - time of init); an empty queue changes nothing.", "quantifier": "all IMU streams and interleavings with the consumer", "why_tests_cant": "unbounded histories and schedules", "anchors": ["src/filter/inekf/propagation/imu_propagation.cpp:Propagate", "src/filter/inekf/propagation/imu_propagation.cpp:set_initial_state", "src/estimator/inekf_estimator.cpp:RunOnce"]}
{"id": "C21", "title": "Velocity measurements are consumed in order, at most once, never when stale", "statement": "Over any interleaving of producer pushes and Correct calls each velocity sample is applied at most once, in arrival order; no sample older than the propagated time by more than the threshold is ever applied; a false return means the state was untouched; a sample is dropped only if stale.", "quantifier": "all schedules and streams", "why_tests_cant": "unbounded schedules", "anchors": ["src/filter/inekf/correction/velocity_correction.cpp:Correct"]}
{"id": "C22", "title": "No future velocity measurement is applied", "statement": "Correct never applies a velocity measurement whose time is not before the last propagated time (that is what its early return is for).", "quantifier": "all queues and thresholds", "why_tests_cant": "needs a particular queue content", "anchors": ["src/filter/inekf/correction/velocity_correction.cpp:Correct"]}
{"id": "C23", "title": "Tracked contacts equal the feet in contact", "statement": "After every legged kinematics correction the set of augmented legs is exactly the set of legs whose contact flag was set in the measurement used, each with its own live column.", "quantifier": "all histories of contact patterns", "why_tests_cant": "unbounded histories of 2^n contact patterns", "anchors": ["src/filter/inekf/correction/legged_kinematics_correction.cpp:Correct"]}
{"id": "C24", "title": "A new contact is consistent with the kinematics that created it", "statement": "A newly augmented contact position is p + R h, so re-measuring the same foot immediately gives zero innovation and leaves the state unchanged; the augmented covariance is sym. PSD and its marginal on the old state is the old covariance.", "quantifier": "all states, kinematics, covariances", "why_tests_cant": "all reals", "anchors": ["src/filter/inekf/correction/legged_kinematics_correction.cpp:Correct"]}
{"id": "C25", "title": "Leg measurements outside the time window are not used", "statement": "Correct applies a leg measurement only if it is within the time threshold of the propagated time; otherwise the state is untouched.", "quantifier": "all queues", "why_tests_cant": "needs particular time stamps", "anchors": ["src/filter/inekf/correction/legged_kinematics_correction.cpp:Correct"]}
{"id": "C26", "title": "The filter never hits undefined behaviour", "statement": "Starting from construction, every sequence of API calls following the documented protocol (bias init, state init, RunOnce, clear) in any order and with any sensor values meets no out-of-range block, dimension mismatch, null dereference or singular inversion.", "quantifier": "all histories, any sensor values with unit quaternions, any number of legs", "why_tests_cant": "unbounded histories", "anchors": ["src/estimator/inekf_estimator.cpp", "src/filter/inekf/propagation/imu_propagation.cpp", "src/filter/inekf/correction/velocity_correction.cpp", "src/filter/inekf/correction/legged_kinematics_correction.cpp", "src/filter/inekf/inekf.cpp", "src/state/robot_state.cpp"]}
{"id": "C27", "title": "RunOnce publishes exactly the states it computed", "statement": "RunOnce appends to each output queue at most one state, exactly when propagation or some correction succeeded, and it equals the state get_state() returns; otherwise nothing is published and the state is unchanged.", "quantifier": "all states and queue contents", "why_tests_cant": "all branches times all queue contents", "anchors": ["src/estimator/inekf_estimator.cpp:RunOnce"]}
{"id": "C28", "title": "Initialisation is complete and consistent", "statement": "InitState enables the filter only when an IMU sample is available and every correction delivered its first measurement; the state then has the IMU orientation (or identity), zero position, the velocity and time of the newest reading of the last correction, the configured initial covariances and the computed biases; one state is published and no queue retains measurements used by the initialisation; without an IMU sample nothing changes.", "quantifier": "all queue contents and configurations", "why_tests_cant": "interaction of several queues and flags", "anchors": ["src/estimator/inekf_estimator.cpp:InitState", "src/filter/inekf/propagation/imu_propagation.cpp:set_initial_state", "src/filter/inekf/correction/velocity_correction.cpp:initialize", "src/filter/inekf/correction/legged_kinematics_correction.cpp:initialize"]}
{"id": "C29", "title": "Published time stamps never go backwards", "statement": "The time stamps of the states published by RunOnce are non-decreasing when the sensors deliver non-decreasing time stamps.", "quantifier": "all streams and schedules", "why_tests_cant": "depends on interleaving of two streams", "anchors": ["src/estimator/inekf_estimator.cpp:RunOnce", "src/filter/inekf/correction/velocity_correction.cpp:Correct", "src/filter/inekf/correction/legged_kinematics_correction.cpp:Correct", "src/filter/inekf/propagation/imu_propagation.cpp:Propagate"]}
{"id": "C30", "title": "clear() forgets the past", "statement": "After clear() and re-initialisation the filter behaves like a freshly constructed one: estimates and logs do not depend on what happened before the clear.", "quantifier": "all histories before the clear", "why_tests_cant": "quantifies over pairs of histories", "anchors": ["src/estimator/inekf_estimator.cpp:clear", "src/state/robot_state.cpp:clear", "src/filter/inekf/propagation/imu_propagation.cpp:clear"]}
{"id": "C31", "title": "Pose log keeps its rate", "statement": "Consecutive pose log lines are at least 1/rate apart in state time, each line shows time, position, orientation, velocity and body velocity of a state published by RunOnce, in order and without duplicates; a state the logging thread takes is logged exactly when 1/rate has passed since the last one logged (initially: since time 0), and only clear() makes states skip the logging thread.", "quantifier": "all streams and rates", "why_tests_cant": "unbounded streams", "anchors": ["src/estimator/inekf_estimator.cpp:PoseLoggingThread"]}
{"id": "C32", "title": "Log files of different runs and kinds never collide", "statement": "The file names opened by the constructor and by successive clear() calls are pairwise different so that no log overwrites another, and the base name is the configured one without its extension.", "quantifier": "all configured paths and any number of clears", "why_tests_cant": "unbounded number of clears, all strings", "anchors": ["src/estimator/inekf_estimator.cpp:clear", "src/estimator/inekf_estimator.cpp:InekfEstimator"]}
{"id": "C33", "title": "Leg Jacobians are the derivatives of the leg positions", "statement": "For every leg, joint and joint configuration, the generated Jacobian Jp_Body_to_*Foot is the derivative of p_Body_to_*Foot with respect to the joints, depends only on that leg's three joints, and every output cell is written.", "quantifier": "all joint angles in R^12, 4 legs x 3 outputs x 12 joints", "why_tests_cant": "machine generated formulas over all reals", "anchors": ["src/kinematics/robots/mini_cheetah/p_Body_to_FrontRightFoot.cpp", "src/kinematics/robots/mini_cheetah/Jp_Body_to_FrontRightFoot.cpp", "src/kinematics/mini_cheetah_kinematics.cpp:ComputeKinematics"]}
{"id": "C34", "title": "Leg transforms are rigid motions consistent with the positions", "statement": "For every leg the generated homogeneous transform H is in SE(3), its rotation part is the generated R and its translation is the generated p; the generated body and spatial Jacobians are the corresponding twists of H.", "quantifier": "all joint angles", "why_tests_cant": "machine generated formulas", "anchors": ["src/kinematics/robots/mini_cheetah/H_Body_to_FrontRightFoot.cpp", "src/kinematics/robots/mini_cheetah/R_Body_to_FrontRightFoot.cpp"]}
{"id": "C35", "title": "Initial velocity keeps the stance foot still", "statement": "The initial body velocity computed from the encoders is the velocity for which the first foot in contact has zero world velocity; it is zero if no foot is in contact.", "quantifier": "all joint angles, rates, body rates and contact patterns", "why_tests_cant": "all reals", "anchors": ["src/kinematics/mini_cheetah_kinematics.cpp:get_init_velocity"]}
{"id": "C36", "title": "IMU orientations are rotations", "statement": "An ImuMeasurement accepts exactly the quaternions whose squared norm is within 1e-5 of one, rejects the others without changing the stored value, and the rotation it returns for a unit quaternion is a rotation matrix; for an accepted one it is a rotation up to an explicit bound.", "quantifier": "all quaternions", "why_tests_cant": "all reals", "anchors": ["include/drift/measurement/impl/imu_impl.cpp:set_quaternion"]}
{"id": "C37", "title": "Gyro filter covariance stays positive semi-definite", "statement": "Every propagation and correction of the angular-velocity EKF keeps its covariance symmetric PSD and its innovation covariance invertible, for all measurements; a correction never increases it.", "quantifier": "all histories and all values", "why_tests_cant": "matrix inequalities over all histories", "anchors": ["src/imu_filter/imu_ang_vel_ekf.cpp:AngVelFilterCorrectIMU", "src/imu_filter/imu_ang_vel_ekf.cpp:AngVelFilterCorrectEncoder", "src/imu_filter/imu_ang_vel_ekf.cpp:GyroPropagate", "src/imu_filter/imu_ang_vel_ekf.cpp:RandomWalkPropagate"]}
{"id": "C38", "title": "Gyro filter consumes its inputs in order, once", "statement": "The angular velocity filter uses each delivered IMU or encoder sample at most once in time-stamp order, every output is the current estimate, and no stale input can block later inputs for ever.", "quantifier": "all schedules and streams", "why_tests_cant": "unbounded schedules", "anchors": ["src/imu_filter/imu_ang_vel_ekf.cpp:RunOnce", "src/imu_filter/imu_ang_vel_ekf.cpp:SingleImuCorrection", "src/imu_filter/imu_ang_vel_ekf.cpp:MultiImuCorrection", "src/imu_filter/imu_ang_vel_ekf.cpp:SingleImuAngVelCorrection"]}
{"id": "C39", "title": "Wheel odometry integrates on the group", "statement": "Wheel odometry integrates each sample over its own interval (intervals telescope) and its pose stays in SE_2(3).", "quantifier": "all encoder/IMU streams", "why_tests_cant": "unbounded streams", "anchors": ["baselines/src/wheel_odometry/wheel_odometry.cpp:RunOnce", "baselines/src/wheel_odometry/wheel_odometry.cpp:Integrate"]}
{"id": "C40", "title": "Wheel encoder messages convert to body velocity", "statement": "For every JointState message with enough entries the published body velocity is the average of left and right wheel speeds times the wheel radius and the yaw rate is their difference over the track width; shorter messages are rejected.", "quantifier": "all messages", "why_tests_cant": "all lengths and values", "anchors": ["ROS/drift/src/communication/ros_subscriber.cpp:DifferentialEncoder2VelocityCallback", "ROS/drift/src/communication/ros_subscriber.cpp:DifferentialEncoder2VelocityCallback_Fetch"]}
{"id": "C41", "title": "Published pose covariance is the covariance of the published pose", "statement": "The 6x6 covariance in the published pose message is the covariance of (position, orientation) in the order the message type prescribes; path decimation publishes every k-th pose with k = pose rate / path rate.", "quantifier": "all states and rates", "why_tests_cant": "all reals and all rates", "anchors": ["ROS/drift/src/communication/ros_publisher.cpp:PosePublish"]}
{"id": "C42", "title": "Initial bias is the mean of the calibration window", "statement": "After static bias initialisation the gyro and accelerometer biases are exactly the mean over the collected window, the window has exactly the configured number of samples in arrival order, and no sample is lost or counted twice; with static initialisation off the configured priors are used.", "quantifier": "all streams and window sizes", "why_tests_cant": "all streams; window size zero", "anchors": ["src/filter/inekf/propagation/imu_propagation.cpp:InitImuBias"]}
{"id": "C43", "title": "A stationary robot does not drift", "statement": "If the robot is calibrated and initialised at rest and every IMU sample equals the calibration value, then after any number of propagation steps with any time stamps position, velocity and rotation are exactly unchanged.", "quantifier": "all numbers of steps, time stamps, mounting rotations, orientations", "why_tests_cant": "unbounded number of steps; exact", "anchors": ["src/filter/inekf/propagation/imu_propagation.cpp:InitImuBias", "src/filter/inekf/propagation/imu_propagation.cpp:Propagate", "src/filter/inekf/propagation/imu_propagation.cpp:set_initial_state"]}
{"id": "C44", "title": "Time stamps preserve order", "statement": "Converting a ROS (sec, nsec) stamp to the double used by the filter preserves the order of stamps and never maps distinct nanosecond stamps to the same time.", "quantifier": "all stamps", "why_tests_cant": "2^62 pairs of stamps and floating point rounding", "anchors": ["ROS/drift/src/communication/ros_subscriber.cpp:IMUCallback"]}
{"id": "C45", "title": "Body- and world-frame accessors agree", "statement": "The body-frame velocity, position, rotation and matrix returned for a state are those of the inverse of its world-frame matrix, and setters/getters round-trip.", "quantifier": "all states", "why_tests_cant": "all reals", "anchors": ["src/state/robot_state.cpp:get_body_velocity", "src/state/robot_state.cpp:get_world_velocity", "src/state/robot_state.cpp:get_body_X"]}
{"id": "C46", "title": "Published states are snapshots", "statement": "A copy of the state handed out (get_state, published queue) is never changed by later filter steps.", "quantifier": "all histories after the copy", "why_tests_cant": "aliasing through shared pointers needs particular later deletions", "anchors": ["src/state/robot_state.cpp:RobotState", "src/state/robot_state.cpp:del_aug_state", "src/estimator/inekf_estimator.cpp:get_state"]}
{"id": "C47", "title": "Left-invariant correction handles both error conventions", "statement": "CorrectLeftInvariant run on a covariance in right-invariant coordinates gives the same mean, and the transformed covariance, as run on the corresponding left-invariant covariance.", "quantifier": "all states and measurements", "why_tests_cant": "coordinate-equivalence over all reals", "anchors": ["src/filter/inekf/inekf.cpp:CorrectLeftInvariant"]}
{"id": "C48", "title": "Augmented biases are stored and removed at the right place", "statement": "add_aug_bias / get_aug_bias / del_aug_bias store, return and remove the three entries of the addressed augmented bias and nothing else.", "quantifier": "all numbers of augmented biases and indices", "why_tests_cant": "all sizes", "anchors": ["src/state/robot_state.cpp:add_aug_bias", "src/state/robot_state.cpp:del_aug_bias", "src/state/robot_state.cpp:get_aug_bias"]}
{"id": "C49", "title": "No sensor message is lost or duplicated by the queues", "statement": "For every interleaving of the subscriber threads and the filter thread, the concatenation of consumed and still queued messages of each sensor is exactly the sequence of delivered messages.", "quantifier": "all interleavings at lock granularity", "why_tests_cant": "exponentially many schedules", "anchors": ["ROS/drift/src/communication/ros_subscriber.cpp", "src/filter/inekf/propagation/imu_propagation.cpp:Propagate", "src/filter/inekf/correction/velocity_correction.cpp:Correct", "src/filter/inekf/correction/legged_kinematics_correction.cpp:Correct"]}
{"id": "C50", "title": "Slip detection is a chi-square test on the filter's own velocity", "statement": "The slip flag is set exactly when the Mahalanobis distance between measured and estimated body velocity exceeds the threshold, and the detection does not change the state estimate.", "quantifier": "all states and measurements", "why_tests_cant": "all reals", "anchors": ["src/estimator/inekf_estimator.cpp:SlipEstimatorStep"]}
{"id": "C51", "title": "Block-diagonal state copies are mutually inverse", "statement": "copy_diag_X(n, B) and copy_diag_Xinv(n, B) append n copies of the state matrix (its inverse) to the diagonal of B, with zeros elsewhere, so the two results built from empty matrices are mutually inverse.", "quantifier": "all n and all states", "why_tests_cant": "all sizes", "anchors": ["src/state/robot_state.cpp:copy_diag_X", "src/state/robot_state.cpp:copy_diag_Xinv"]}
{"id": "C52", "title": "The right-invariant correction is the textbook invariant Kalman update", "statement": "CorrectRightInvariant uses a gain G with G(HPH^T+N)=PH^T, moves the mean by the matrix exponential of the group part of G Z from the left, adds the bias part (z gyro bias excepted) and stores the Joseph-form covariance (z gyro bias entry reset), in right-invariant coordinates whatever the stored convention.", "quantifier": "all states, measurements, K, both conventions, bias on/off", "why_tests_cant": "all reals and sizes", "anchors": ["src/filter/inekf/inekf.cpp:CorrectRightInvariant"]}
{"id": "C53", "title": "The covariance transition matrix solves the linearised error dynamics", "statement": "The matrix the propagation step multiplies the covariance with is the value at dt of the flow of the linearised invariant error dynamics, biases included; in right-invariant coordinates it is the conjugate of the left-invariant one.", "quantifier": "all angular rates, accelerations, time steps and numbers of contacts", "why_tests_cant": "a differential equation over all reals; errors only show up as slowly wrong covariances", "anchors": ["src/filter/inekf/propagation/imu_propagation.cpp:StateTransitionMatrix"]}
{"id": "C54", "title": "Propagation does not depend on the error convention", "statement": "Running the propagation in left-invariant coordinates and re-expressing the covariance gives exactly the estimates and covariances of the run in right-invariant coordinates.", "quantifier": "all sample streams, states and numbers of contacts", "why_tests_cant": "equivalence of two programs over all reals and histories", "anchors": ["src/filter/inekf/propagation/imu_propagation.cpp:Propagate", "src/filter/inekf/propagation/imu_propagation.cpp:DiscreteNoiseMatrix"]}
{"id": "C55", "title": "Innovations depend on the invariant error only", "statement": "If the true state is exp(xi) times the estimate and the body velocity (foot position) is measured exactly, the innovation the correction feeds to the filter is the right Jacobian of the rotation error applied to the velocity error (to the difference of foot and position errors), whatever the estimate: the observation model of the invariant filter.", "quantifier": "all estimates, all errors xi, all numbers of contacts", "why_tests_cant": "all reals and sizes", "anchors": ["src/filter/inekf/correction/velocity_correction.cpp:Correct", "src/filter/inekf/correction/legged_kinematics_correction.cpp:Correct"]}
{"id": "C56", "title": "Initial velocity is consistent with later corrections", "statement": "The velocity the estimator starts with is the one the first velocity reading would be corrected to: applying the same reading as a correction right after initialisation gives a zero innovation, for every configured mounting rotation and velocity scale.", "quantifier": "all mounting rotations, scales, readings", "why_tests_cant": "all reals and configurations", "anchors": ["src/filter/inekf/correction/velocity_correction.cpp:initialize", "src/filter/inekf/correction/velocity_correction.cpp:Correct"]}
{"id": "C57", "title": "The whole filter does not depend on the error convention", "statement": "Two estimators that differ only in the configured error convention, fed with the same history, publish the same estimates, times and log lines, and covariances that are the same up to the change of coordinates.", "quantifier": "all legal histories, all configurations", "why_tests_cant": "pairs of unbounded histories over all reals", "anchors": ["src/estimator/inekf_estimator.cpp", "src/filter/inekf/propagation/imu_propagation.cpp", "src/filter/inekf/inekf.cpp", "src/filter/inekf/correction/velocity_correction.cpp", "src/filter/inekf/correction/legged_kinematics_correction.cpp"]}
{"id": "C58", "title": "Logged and published orientation is the state's rotation", "statement": "The quaternion written to the log and published is a unit quaternion whose rotation matrix is exactly the rotation of the state, on every branch of the conversion.", "quantifier": "all rotations", "why_tests_cant": "all of SO(3), four branches with divisions", "anchors": ["src/estimator/inekf_estimator.cpp:PoseLoggingThread", "ROS/drift/src/communication/ros_publisher.cpp"]}
{"id": "C59", "title": "Every accepted sensor arrangement of the gyro filter yields results", "statement": "For every combination of sensors the set-up calls accept, delivered samples eventually lead to filtered measurements, and starting the filter reads nothing that has not been set.", "quantifier": "all configurations, sensor arrangements and sample streams", "why_tests_cant": "silence over unbounded histories", "anchors": ["src/imu_filter/imu_ang_vel_ekf.cpp:RunOnce", "src/imu_filter/imu_ang_vel_ekf.cpp:InitializeFilter", "src/imu_filter/imu_ang_vel_ekf.cpp:SingleImuCorrection", "src/imu_filter/imu_ang_vel_ekf.cpp:MultiImuCorrection", "src/imu_filter/imu_ang_vel_ekf.cpp:AngVelCorrection"]}
{"id": "C60", "title": "clear() of the gyro filter may be called at any time", "statement": "clear() discards the waiting samples and results and keeps the estimate, whenever another thread calls it.", "quantifier": "all interleavings with the filter thread", "why_tests_cant": "schedules", "anchors": ["src/imu_filter/imu_ang_vel_ekf.cpp:clear", "src/imu_filter/imu_ang_vel_ekf.cpp:SingleImuAngVelCorrection"]}
{"id": "C61", "title": "Gyro dead reckoning telescopes", "statement": "While only propagation gyro samples arrive, the estimated rate moves by the last used gyro reading minus the one before the first used, the bias estimate is unchanged and the covariance grows by one process noise per sample used.", "quantifier": "all reachable filters and all sample streams", "why_tests_cant": "unbounded histories over the reals", "anchors": ["src/imu_filter/imu_ang_vel_ekf.cpp:GyroPropagate"]}
{"id": "C62", "title": "Idle iterations of the gyro filter change nothing", "statement": "While no sample is waiting, iterations of the filter thread (whose number depends on the CPU speed) change neither the estimate nor its covariance.", "quantifier": "all reachable filters, all numbers of iterations", "why_tests_cant": "depends on unbounded scheduling", "anchors": ["src/imu_filter/imu_ang_vel_ekf.cpp:RunOnce", "src/imu_filter/imu_ang_vel_ekf.cpp:RandomWalkPropagate"]}
{"id": "C63", "title": "Gyro filter calibration is the mean of the first N readings", "statement": "With static calibration over N samples the filter starts with zero rate and the mean of the first N delivered IMU rates as bias, and never before N samples have arrived.", "quantifier": "all windows N, streams and schedules", "why_tests_cant": "unbounded sums", "anchors": ["src/imu_filter/imu_ang_vel_ekf.cpp:InitializeFilter"]}
{"id": "C64", "title": "flat_ground means what the configuration file says", "statement": "With flat_ground the filter enforces zero roll and pitch rates, without it the filter updates only the yaw rate and bias.", "quantifier": "all reachable filters, all measurements", "why_tests_cant": "all histories over the reals", "anchors": ["src/imu_filter/imu_ang_vel_ekf.cpp:ImuAngVelEKF", "config/neya_gyro_filter/imu_filter.yaml"]}
{"id": "C65", "title": "Velocity from odometry is exact for constant twists", "statement": "The velocity derived from two consecutive odometry poses of a source is the robot's body velocity, exactly, whenever the robot moves with constant twist and turns by less than pi between them; other sources' queues are untouched; equal stamps must not divide by zero.", "quantifier": "all motions with constant twist, all mountings, all histories of messages", "why_tests_cant": "all reals; the matrix logarithm", "anchors": ["ROS/drift/src/communication/ros_subscriber.cpp:Odom2VelocityCallback", "ROS/drift/src/communication/ros_subscriber.cpp:AddOdom2VelocityCallback"]}
{"id": "C66", "title": "Each odometry source uses its own mounting", "statement": "With several odometry sources, the velocity of each is computed with the mounting configured for that source.", "quantifier": "all configurations with several sources", "why_tests_cant": "depends on the order of configuration and message arrival", "anchors": ["ROS/drift/src/communication/ros_subscriber.cpp:AddOdom2VelocityCallback", "ROS/drift/src/communication/ros_subscriber.cpp:Odom2VelocityCallback"]}
{"id": "C67", "title": "IMU messages are converted faithfully", "statement": "An IMU message becomes one measurement with the same stamp, rates and accelerations; a zero quaternion means no orientation (identity), a unit quaternion is kept, any other is refused without queueing anything; the Fetch variant adds the offset message to the rates.", "quantifier": "all messages", "why_tests_cant": "all reals", "anchors": ["ROS/drift/src/communication/ros_subscriber.cpp:IMUCallback", "ROS/drift/src/communication/ros_subscriber.cpp:FetchIMUCallBack"]}
{"id": "C68", "title": "Leg messages become usable measurements", "statement": "A pair of contact and joint-state messages of sufficient length becomes one measurement with the contact message's time, whose kinematics can be computed and give the foot positions of the joint angles sent and the contacts sent; shorter messages must not be read past their end.", "quantifier": "all pairs of messages", "why_tests_cant": "all lengths and values", "anchors": ["ROS/drift/src/communication/ros_subscriber.cpp:MiniCheetahKinCallBack", "src/kinematics/mini_cheetah_kinematics.cpp"]}
{"id": "C69", "title": "The publisher survives a reset of the estimator", "statement": "However the estimator's clear() interleaves with the publisher's threads, the publisher never takes from an empty queue, and it publishes a subsequence of the states pushed, in order.", "quantifier": "all interleavings of push, clear and the publishing threads", "why_tests_cant": "unbounded interleavings", "anchors": ["ROS/drift/src/communication/ros_publisher.cpp:PosePublish", "src/estimator/inekf_estimator.cpp:clear"]}
{"id": "C70", "title": "The estimate turns with the heading", "statement": "If every IMU orientation of a history is reported in a world turned about the vertical by some heading, every published state, queued log state and log line is the one of the original history turned by that heading: positions, velocities, orientation and contact points rotate, times and body velocities stay, and the covariance turns with its error convention; the run fails exactly when the original fails.", "quantifier": "all headings, configurations with an orientation-reporting IMU, legal histories, both error conventions, all corrections", "why_tests_cant": "ranges over all headings and unbounded histories over the reals", "anchors": ["src/filter/inekf/propagation/imu_propagation.cpp:InitImuBias", "src/estimator/inekf_estimator.cpp:RunOnce", "src/estimator/inekf_estimator.cpp:InitState"]}
{"id": "C71", "title": "The IMU orientation is ignored when configured so", "statement": "With the IMU orientation switched off in the configuration, two histories that differ only in the orientations reported by the IMU give identical published states, covariances, queued log states, log lines, log files and failures.", "quantifier": "all configurations with orientation off, all histories whatsoever, all orientation contents including non-unit ones", "why_tests_cant": "non-interference between two unbounded runs", "anchors": ["src/filter/inekf/propagation/imu_propagation.cpp:InitImuBias", "src/filter/inekf/propagation/imu_propagation.cpp:set_initial_state", "src/estimator/inekf_estimator.cpp:InitState"]}
{"id": "C72", "title": "The shipped programs never fail", "statement": "Each example program with its shipped configuration files follows the estimator's call protocol and, whatever the sensors deliver (unit quaternions, stamps not going backwards) and however callbacks, publisher, logger and loop interleave, never hits undefined behaviour; everything it publishes or logs is a valid rotation with PSD covariance. The only way to get stuck is waiting in InitState for a correction without readings.", "quantifier": "all ten programs, all message sequences and interleavings", "why_tests_cant": "unbounded schedules of a whole program", "anchors": ["ROS/drift/examples/husky.cpp:main", "ROS/drift/examples/mini_cheetah.cpp:main", "ROS/drift/examples/fetch_gyro_filter.cpp:main", "src/estimator/inekf_estimator.cpp:RunOnce"]}
{"id": "C73", "title": "The shipped programs publish one pose per IMU sample", "statement": "After the configured number of calibration samples the filter starts with the next sample, not earlier; from then on each iteration that finds an IMU sample publishes exactly one state, so samples taken after calibration and states published by such iterations are equal in number; at most one iteration that finds a sample does not take one (the one that completes the calibration).", "quantifier": "all ten programs, all message sequences and interleavings", "why_tests_cant": "exact counts over unbounded schedules", "anchors": ["ROS/drift/examples/husky.cpp:main", "src/estimator/inekf_estimator.cpp:InitBias", "src/estimator/inekf_estimator.cpp:InitState", "src/estimator/inekf_estimator.cpp:RunOnce"]}
{"id": "C74", "title": "The programs with a gyro filter never fail", "statement": "In the shipped programs that put a gyro filter between the sensors and the estimator, filter thread and estimator together never hit undefined behaviour and publish and log only sound states, whatever the gyros, IMUs and encoders deliver (stamps not going backwards, unit orientations) and however the filter thread, main loop, callbacks, publisher and logger interleave.", "quantifier": "all programs with a gyro filter, all sensor streams and interleavings of two threads", "why_tests_cant": "unbounded schedules of composed threads", "anchors": ["ROS/drift/examples/fetch_gyro_filter.cpp:main", "ROS/drift/examples/neya_gyro_filter.cpp:main", "ROS/drift/examples/husky_double_imu_filter.cpp:main", "ROS/drift/examples/husky_gyro_filter.cpp:main", "src/imu_filter/imu_ang_vel_ekf.cpp:RunFilter", "src/estimator/inekf_estimator.cpp:RunOnce"]}
{"id": "C75", "title": "The gyro filter feeds the estimator in order and without stalling", "statement": "In those programs each correcting sample (encoder reading or IMU sample) yields at most one IMU sample for the estimator, in order and with its own stamp, carrying the orientation and acceleration of a delivered sample; readings keep passing, so the estimator goes on publishing.", "quantifier": "all programs with a gyro filter, all sensor streams and interleavings", "why_tests_cant": "order and progress over unbounded schedules", "anchors": ["ROS/drift/examples/fetch_gyro_filter.cpp:main", "ROS/drift/examples/husky_double_imu_filter.cpp:main", "src/imu_filter/imu_ang_vel_ekf.cpp:SingleImuCorrection", "src/imu_filter/imu_ang_vel_ekf.cpp:AngVelCorrection", "src/imu_filter/imu_ang_vel_ekf.cpp:SingleImuAngVelCorrection"]}
{"id": "C76", "title": "The filter never pretends to know what it cannot observe", "statement": "The sensors (IMU, body velocity, feet relative to the body) cannot tell where the world's origin is nor how the world is turned about the vertical. Accordingly no sequence of propagations and corrections, with whatever readings, ever reduces the filter's uncertainty about a shift of the world, a turn of the world about the vertical, or a combination: every estimate it ever produces has at least the position covariance it was configured to start with and (right-invariant convention) at least the initial heading variance; only clear() can reset it.", "quantifier": "all configurations, all legal histories of any length, both error conventions, all directions", "why_tests_cant": "consistency is about all histories and all directions; a test shows only the covariance of one run", "anchors": ["src/estimator/inekf_estimator.cpp:RunOnce", "src/filter/inekf/propagation/imu_propagation.cpp:Propagate", "src/filter/inekf/propagation/imu_propagation.cpp:StateTransitionMatrix", "src/filter/inekf/correction/velocity_correction.cpp:Correct", "src/filter/inekf/correction/legged_kinematics_correction.cpp:Correct", "src/filter/inekf/inekf.cpp:CorrectRightInvariant"]}
{"id": "C77", "title": "A used reading leaves at most its own uncertainty", "statement": "A velocity reading that is used leaves the covariance of the velocity (in world axes) no larger than the configured covariance of the reading; a leg measurement that is used leaves, for every foot it reports in contact, the covariance of that foot relative to the body no larger than that of the measured foot position, and equal to it for a foot that has just touched down, however uncertain the filter was before.", "quantifier": "all states, covariances, readings, contact patterns, both error conventions", "why_tests_cant": "matrix inequality over all PSD covariances and all contact sets", "anchors": ["src/filter/inekf/correction/velocity_correction.cpp:Correct", "src/filter/inekf/correction/legged_kinematics_correction.cpp:Correct", "src/filter/inekf/inekf.cpp:CorrectRightInvariant"]}
{"id": "C78", "title": "Perfect sensors give the exact trajectory", "statement": "If InitState starts on the true trajectory, the IMU samples describe the true motion (constant body rate and specific force between samples, the estimator's own biases) and every velocity or leg reading that RunOnce uses is correct for the true pose at the propagated time, then every published estimate is exactly on the true trajectory, the biases never move, and every stored foot position is exactly where the foot stands - whatever the noise settings, covariances, error convention, set of corrections and order of calls. In particular a robot driving a circle stays on it for ever and a standing legged robot that lifts and puts down its feet does not move.", "quantifier": "all configurations, true trajectories, legal histories of any length, both error conventions", "why_tests_cant": "exactness over unbounded histories and over all gains; tests only see small residuals of finite runs", "anchors": ["src/estimator/inekf_estimator.cpp:RunOnce", "src/filter/inekf/propagation/imu_propagation.cpp:Propagate", "src/filter/inekf/correction/velocity_correction.cpp:Correct", "src/filter/inekf/correction/legged_kinematics_correction.cpp:Correct", "src/filter/inekf/inekf.cpp:CorrectRightInvariant"]}
{"id": "C79", "title": "The origin of the clock does not matter", "statement": "If every sensor's time stamps are moved by the same amount (another epoch, another boot time), the history stays legal and the estimator publishes exactly the same states, covariances and contacts, only their time stamps moved by that amount.", "quantifier": "all offsets, configurations, legal histories of any length", "why_tests_cant": "relates two unbounded runs over the reals", "anchors": ["src/estimator/inekf_estimator.cpp:RunOnce", "src/estimator/inekf_estimator.cpp:InitState", "src/filter/inekf/propagation/imu_propagation.cpp:Propagate", "src/filter/inekf/correction/velocity_correction.cpp:Correct", "src/filter/inekf/correction/legged_kinematics_correction.cpp:Correct"]}
{"id": "C80", "title": "The interleaving of callbacks and background threads does not matter", "statement": "Only the order of operations on one shared resource matters (each sensor queue, the queue of published states, the queue of the logger, the log files, the estimate itself): two histories that agree on it resource by resource end in the same estimator and publish the same states. The reader of published states and the logging thread never influence the estimate. An IMU sample (or reader) may come before or after a RunOnce that does not find its queue empty, and a reading delivered just before a call is the same as one that arrives before the first critical section of its correction during the call.", "quantifier": "all configurations, legal histories, interleavings", "why_tests_cant": "exponentially many schedules of unbounded histories", "anchors": ["src/estimator/inekf_estimator.cpp:RunOnce", "src/estimator/inekf_estimator.cpp:PoseLoggingThread", "ROS/drift/src/communication/ros_subscriber.cpp:IMUCallback", "src/filter/inekf/correction/velocity_correction.cpp:Correct", "src/filter/inekf/correction/legged_kinematics_correction.cpp:Correct"]}
{"id": "C81", "title": "A complete ROS node turns every message into the right pose message", "statement": "For each shipped ROS program without a gyro filter, whatever messages arrive and however the subscriber callbacks, the main loop, the pose and path publishers and the logging thread interleave: there is no undefined behaviour (the only way not to go on is an iteration that waits for a velocity or leg reading that never comes); the estimator is fed exactly the samples and readings that the messages stand for, in order; the pose messages on the topic say, in order and without gap or repetition, the states the estimator published; every iteration that finds a sample waiting consumes it and all but the calibration window are published; a pass of the pose thread sends the oldest waiting state; the path is every tenth pose sent.", "quantifier": "all well-formed message streams, interleavings, history lengths, shipped programs", "why_tests_cant": "exponentially many schedules of unbounded message streams through five threads", "anchors": ["ROS/drift/examples/husky.cpp:main", "ROS/drift/examples/mini_cheetah.cpp:main", "ROS/drift/src/communication/ros_subscriber.cpp:IMUCallback", "ROS/drift/src/communication/ros_publisher.cpp:PosePublish", "src/estimator/inekf_estimator.cpp:RunOnce"]}
{"id": "C82", "title": "A parked robot stays where it is", "statement": "If the robot does not move - every IMU sample has the same readings, whatever the biases and the tilt, and the wheels (or legs) report no motion - then, whatever the order of calls, callbacks and threads, the estimator calibrates itself, starts, and every state it publishes is the origin with zero velocity and the initial orientation; every pose message of a shipped wheeled ROS node that calibrates itself (Fetch, Husky, Neya) says: at the origin, not turned - for ever.", "quantifier": "all configurations that account for the readings, readings, noise settings, interleavings, history lengths", "why_tests_cant": "no drift over unbounded histories, for all readings and schedules", "anchors": ["src/estimator/inekf_estimator.cpp:InitBias", "src/estimator/inekf_estimator.cpp:InitState", "src/estimator/inekf_estimator.cpp:RunOnce", "src/filter/inekf/propagation/imu_propagation.cpp:InitImuBias", "ROS/drift/src/communication/ros_publisher.cpp:PosePublish", "ROS/drift/examples/husky.cpp:main"]}
{"id": "C83", "title": "One iteration is the textbook filter step with the configured parameters", "statement": "In any running state RunOnce does exactly this to the estimate: if an IMU sample waits, the state is predicted over the sample in turn - the mean is the exact integral of the strapdown equations with the rates of that sample (mounting, lever arm, biases as configured), the covariance is Phi P Phi^T + dt (Phi G) Q (Phi G)^T with the configured noise densities (squares of the configured standard deviations, stated defaults), contacts and biases as documented -; then each configured correction, in the order of the configuration, drops its stale readings, uses at most one that is not stale, and applies the textbook invariant update with its configured noise, mounting, scale and time window; nothing else happens to the estimate. InitState starts with the configured biases or with the means over the first samples of the IMU stream.", "quantifier": "all configurations, legal histories of any length, readings, contact patterns, arrival schedules, both error conventions", "why_tests_cant": "every parameter of the configuration file, every contact pattern and every reachable covariance at once; a wrong default or a swapped parameter is invisible to a test that does not set it", "anchors": ["src/estimator/inekf_estimator.cpp:RunOnce", "src/estimator/inekf_estimator.cpp:InitState", "src/filter/inekf/propagation/imu_propagation.cpp:Propagate", "src/filter/inekf/propagation/imu_propagation.cpp:ImuPropagation", "src/filter/inekf/propagation/imu_propagation.cpp:InitImuBias", "src/filter/inekf/correction/velocity_correction.cpp:VelocityCorrection", "src/filter/inekf/correction/velocity_correction.cpp:Correct", "src/filter/inekf/correction/legged_kinematics_correction.cpp:LeggedKinematicsCorrection", "src/filter/inekf/correction/legged_kinematics_correction.cpp:Correct"]}
{"id": "C84", "title": "One iteration of the gyro filter is the textbook Kalman step with the configured parameters", "statement": "In any initialised state of the gyro filter reached by a configuration file, add_ calls and a history of samples and iterations, RunOnce does exactly this: with gyro propagation the next sample of the gyro stream, if one waits, moves the rate by its difference from the gyro sample before it and adds the configured process noise (squares of the configured standard deviations or defaults) to the covariance - without gyro propagation the noise is added in every iteration; the correction method follows from the sensors added, else from the configuration; a correction takes the sample in turn, uses it only within the configured time threshold, and is the Kalman update of what that sensor sees of rate and bias (all axes or the vertical one as configured) with the configured noise, an encoder rate being turned by the inverse of the configured mounting; each result carries the new rate, the time of the sample used and orientation and acceleration of an IMU sample. The first estimate has zero rate and the configured bias, or the mean over the configured number of calibration samples, with the configured covariance.", "quantifier": "all configurations, sets of sensors, histories of any length, readings", "why_tests_cant": "every parameter and every reachable estimate and covariance at once; a wrong default or a swapped parameter is invisible to a test that does not set it", "anchors": ["src/imu_filter/imu_ang_vel_ekf.cpp:RunOnce", "src/imu_filter/imu_ang_vel_ekf.cpp:ImuAngVelEKF", "src/imu_filter/imu_ang_vel_ekf.cpp:GyroPropagate", "src/imu_filter/imu_ang_vel_ekf.cpp:RandomWalkPropagate", "src/imu_filter/imu_ang_vel_ekf.cpp:SingleImuCorrection", "src/imu_filter/imu_ang_vel_ekf.cpp:SingleImuAngVelCorrection", "src/imu_filter/imu_ang_vel_ekf.cpp:MultiImuCorrection", "src/imu_filter/imu_ang_vel_ekf.cpp:AngVelCorrection", "src/imu_filter/imu_ang_vel_ekf.cpp:InitializeFilter"]}
{"id": "C85", "title": "State objects hold what was stored in them", "statement": "RobotState and SEK3: a constructor gives exactly the mean, biases and covariance asked for (zero biases and identity covariance by default), with no landmark, time or noise; each setter changes the block of its quantity and nothing else, and each getter reads the quantity it names - the covariance getters the covariance of that quantity, whatever landmarks were added and removed; an object built from (R, p, v) has orientation R, position p and velocity v.", "quantifier": "all matrices, vectors, covariances, numbers of columns, histories of landmarks and updates", "why_tests_cant": "index arithmetic over all sizes and histories; the bias blocks move when landmarks appear", "anchors": ["src/state/robot_state.cpp:RobotState", "src/state/robot_state.cpp:set_rotation", "src/state/robot_state.cpp:set_velocity", "src/state/robot_state.cpp:set_position", "src/state/robot_state.cpp:set_aug_state", "src/state/robot_state.cpp:set_gyroscope_bias", "src/state/robot_state.cpp:set_rotation_covariance", "src/state/robot_state.cpp:get_gyroscope_bias_covariance", "src/state/robot_state.cpp:get_accelerometer_bias_covariance", "src/state/robot_state.cpp:add_aug_cov", "src/math/se_k_3.cpp:SEK3", "src/math/se_k_3.cpp:set_R"]}
{"id": "C86", "title": "Claiming less uncertainty never yields more", "statement": "The filter is monotone in what it is told about uncertainty: two runs that apply the same right-invariant corrections (any number, whatever the residuals and estimates) end with covariances in the same Loewner order in which they started, as long as the measurement noises are so ordered; the same holds for any number of propagations of one trajectory when the initial covariances and the configured noise strengths are ordered, and smaller standard deviations in the configuration are smaller noise strengths.", "quantifier": "all covariances, noises, observation matrices, samples, numbers of steps, numbers of contacts", "why_tests_cant": "matrix inequality between two runs over all PSD matrices; a test compares two numbers", "anchors": ["src/filter/inekf/inekf.cpp:CorrectRightInvariant", "src/filter/inekf/propagation/imu_propagation.cpp:Propagate", "src/filter/inekf/propagation/imu_propagation.cpp:DiscreteNoiseMatrix", "src/filter/inekf/propagation/imu_propagation.cpp:ImuPropagation"]}
{"id": "C87", "title": "Only the ratios of the noise parameters matter", "statement": "With the bias estimation off, multiplying every configured standard deviation (IMU, velocity, encoder, kinematics, contacts, initial uncertainties; written or default) by the same factor changes nothing but the covariances, which are multiplied by the square of the factor: same protocol, same failures, same poses, velocities, contacts, biases and times published in the same order, same log lines in the same files. The bias noises have no influence at all.", "quantifier": "all configurations with bias estimation off, factors, legal histories of any length, contact patterns, both error conventions", "why_tests_cant": "relates two unbounded runs over the reals for all factors; hard-coded constants in the covariance (the filter has some) could break it anywhere", "anchors": ["src/estimator/inekf_estimator.cpp:RunOnce", "src/estimator/inekf_estimator.cpp:InitState", "src/filter/inekf/inekf.cpp:CorrectRightInvariant", "src/filter/inekf/propagation/imu_propagation.cpp:Propagate", "src/filter/inekf/correction/velocity_correction.cpp:Correct", "src/filter/inekf/correction/legged_kinematics_correction.cpp:Correct"]}
{"id": "C88", "title": "The mirror image of a robot is estimated as the mirror image", "statement": "Take a robot (any number of velocity sensors, at most one leg sensor) and its mirror image, left and right or front and back exchanged: every velocity, acceleration, foot position, lever arm and accelerometer bias changes the sign of one coordinate, every angular velocity and gyroscope bias that of the two others, reported and mounting orientations and the foot Jacobians accordingly. Called in the same way, the estimator of the mirrored robot follows the same protocol, fails when and how the first does, publishes exactly the mirror images of the first one's states in the same order (orientation, velocity, position, biases, noise and every entry of the covariance with the signs of the mirror, same times), tracks the same legs, and logs the mirror images of its lines to the same files. In particular a robot whose settings and readings are their own mirror image is estimated on the mirror for ever: no velocity, position or foot off it, no turn out of it, errors along and across it exactly uncorrelated. For instance whoever drives straight ahead (no sideways component in any reading, turning at most in pitch, sensors mounted accordingly) is never estimated or logged sideways and never turned in heading or roll.", "quantifier": "both mirrors, all configurations with at most one leg correction, legal histories of any length, both error conventions, bias estimation on or off", "why_tests_cant": "relates two unbounded runs over the reals; one wrong sign in the transition matrix, the adjoint, a cross product or the innovation breaks it for some motion only", "anchors": ["src/estimator/inekf_estimator.cpp:RunOnce", "src/estimator/inekf_estimator.cpp:InitState", "src/filter/inekf/inekf.cpp:CorrectRightInvariant", "src/filter/inekf/propagation/imu_propagation.cpp:Propagate", "src/filter/inekf/propagation/imu_propagation.cpp:InitImuBias", "src/filter/inekf/correction/velocity_correction.cpp:Correct", "src/filter/inekf/correction/velocity_correction.cpp:initialize", "src/filter/inekf/correction/legged_kinematics_correction.cpp:Correct", "src/filter/inekf/correction/legged_kinematics_correction.cpp:initialize"]}
