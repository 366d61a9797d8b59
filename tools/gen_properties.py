#!/usr/bin/env python3
"""Writes /verif/properties.jsonl (one property per line)."""
import json, os
P=[]
def p(title, statement, quantifier, why, anchors):
    P.append(dict(id="C%02d"%(len(P)+1), title=title, statement=statement,
                  quantifier=quantifier, why_tests_cant=why, anchors=anchors))
LG="src/math/lie_group.cpp"; SK="src/math/se_k_3.cpp"; RS="src/state/robot_state.cpp"
IK="src/filter/inekf/inekf.cpp"; PR="src/filter/inekf/propagation/imu_propagation.cpp"
VC="src/filter/inekf/correction/velocity_correction.cpp"; LC="src/filter/inekf/correction/legged_kinematics_correction.cpp"
ES="src/estimator/inekf_estimator.cpp"; IF="src/imu_filter/imu_ang_vel_ekf.cpp"
MC="src/kinematics/mini_cheetah_kinematics.cpp"; WO="baselines/src/wheel_odometry/wheel_odometry.cpp"
SUB="ROS/drift/src/communication/ros_subscriber.cpp"; PUB="ROS/drift/src/communication/ros_publisher.cpp"
p("Rotation exponentials are rotations",
  "For every rotation vector w, Exp_SO3(w) is a rotation (orthogonal, determinant +1), Exp_SO3(-w) is its inverse, the rotation fixes w, and the left and right Jacobians satisfy J_r(w) = J_l(w)^T = J_l(-w) and skew(w) J_l(w) = Exp_SO3(w) - I (the last one outside the small-angle cut-off, and up to a bound inside it).",
  "all w in R^3, including both sides of the small-angle threshold", "uncountably many w; a test samples a few and compares to a tolerance",
  [LG+":skew", LG+":Gamma_SO3", LG+":Exp_SO3", LG+":LeftJacobian_SO3", LG+":RightJacobian_SO3"])
p("Gamma_SO3 is the m-th Gamma series",
  "Gamma_SO3(w, m) equals the convergent series sum_n skew(w)^n/(n+m)! for every w above the small-angle threshold and every order m for which the code does not overflow; below the threshold it is within an explicit bound of it; a negative m is rejected and an m whose factorial does not fit a long is undefined behaviour.",
  "all w, all integer m", "infinite domain, and the general-m branch (m >= 3) is never exercised by tests",
  [LG+":Gamma_SO3", LG+":factorial"])
p("Exp_SEK3 is the exponential map of SE_K(3)",
  "For every K and tangent vector of size 3+3K, Exp_SEK3 returns a (3+K)x(3+K) element of SE_K(3), the exponential of -v is its inverse, its columns are J_l(w) applied to each 3-block, and above the threshold it equals the matrix exponential series of the hat matrix.",
  "all K >= 0 and all tangent vectors", "all sizes and real values at once", [LG+":Exp_SEK3"])
p("Adjoint_SEK3 is the adjoint representation",
  "For every X, Y in SE_K(3): Ad(XY) = Ad(X)Ad(Y), Ad(X^-1) = Ad(X)^-1, and X hat(v) X^-1 = hat(Ad(X) v) for every tangent v, so covariances can be moved between left and right error conventions.",
  "all K, all group elements, all tangent vectors", "all sizes and real values", [LG+":Adjoint_SEK3"])
p("Group inverse of the state matrix",
  "For every state whose matrix is in SE_K(3), with any number of augmented columns, get_Xinv() is the inverse of get_X(); composing and inverting SEK3 objects obeys the group laws.",
  "all numbers of augmented columns", "unit tests use the 5x5 case only; the inverse must hold after any contact history",
  [RS+":get_Xinv", SK+":SEK3::inverse", SK+":SEK3::operator*"])
p("State, covariance and noise dimensions stay consistent",
  "After every sequence of adding and deleting augmented states, dim(P) = dim(Qc) = 3 dim(X) + dim(Theta) - 6, the map from columns to ids has dim(X) entries, and no matrix access is out of range.",
  "all histories of add_aug_state / del_aug_state with valid indices", "unbounded histories", [RS+":add_aug_state", RS+":del_aug_state", RS+":RemoveRowAndColumn"])
p("Column ids keep designating their own contact",
  "After any history of adds and deletes, every live landmark id handed out by add_aug_state still names the column and the 3x3 covariance block of the same landmark, distinct ids name distinct columns, and every value read through it equals the value stored for that landmark (possibly after other landmarks were deleted).",
  "all interleavings of adds and deletes", "index shifting errors only show up after particular deletion orders", [RS+":add_aug_state", RS+":del_aug_state"])
p("Deleting a landmark marginalises exactly it",
  "del_aug_state removes exactly the landmark's column of X and its three rows and columns of P and Qc; every other entry is unchanged (re-indexed), so adding a landmark and deleting it again restores X, P, and every remaining contact's data.",
  "all states with any number of augmented columns and any valid index", "index arithmetic over all sizes", [RS+":add_aug_state", RS+":del_aug_state", RS+":RemoveRowAndColumn"])
p("Every active contact keeps its process noise",
  "After any sequence of add_aug_state calls each active contact's 3x3 block of the continuous noise matrix Qc equals the contact noise covariance it was added with, and the bias noise is where the propagation step reads it.",
  "all histories with any number of contacts", "needs two or more simultaneous contacts and an inspection of a private matrix", [RS+":add_aug_state", PR+":DiscreteNoiseMatrix"])
p("Corrections keep the state on the group",
  "Every measurement update (right- and left-invariant) maps a state in SE_K(3) to a state in SE_K(3) with the same number of columns, whatever the observation matrix, noise and innovation.",
  "all states, all H, Z, N for which the innovation covariance is invertible, all K", "all reals and sizes", [IK+":CorrectRightInvariant", IK+":CorrectLeftInvariant"])
p("Corrections keep the covariance symmetric positive semi-definite",
  "Every measurement update maps a symmetric positive semi-definite covariance to a symmetric positive semi-definite one; with positive definite measurement noise the innovation covariance is always invertible so the update cannot fail.",
  "all P sym. PSD, all H, N sym. PD, both error types, bias estimation on and off", "matrix inequality over all reals", [IK+":CorrectRightInvariant", IK+":CorrectLeftInvariant"])
p("A correction never increases uncertainty",
  "In the covariance the update actually uses, the posterior covariance is at most the prior in the Loewner order: no measurement increases the variance of any linear functional of the error (apart from the deliberately reset yaw gyro-bias entry).",
  "all P, H, N", "inequality over all reals", [IK+":CorrectRightInvariant"])
p("Right-invariant correction does not depend on the error convention",
  "CorrectRightInvariant run on a covariance in left-invariant coordinates gives the same mean, and the adjoint-transformed covariance, as run on the corresponding right-invariant covariance.",
  "all states and measurements", "coordinate-equivalence over all reals", [IK+":CorrectRightInvariant"])
p("Disabled bias estimation freezes the biases",
  "With imu bias estimation disabled, corrections with observation matrices that do not observe the bias leave all biases exactly unchanged for ever, and the z gyro bias is never changed by any right-invariant correction, enabled or not.",
  "all sequences of corrections", "unbounded histories, exact equality", [IK+":CorrectRightInvariant", IK+":get_enable_imu_bias_update"])
p("Zero innovation leaves the mean unchanged",
  "When the measurement agrees exactly with the state (innovation zero) a correction leaves rotation, velocity, position, contacts and biases exactly unchanged.",
  "all states, H, N", "exact equality over all reals", [IK+":CorrectRightInvariant", IK+":CorrectLeftInvariant", VC+":Correct"])
p("Propagation keeps the state on the group",
  "Every IMU propagation step maps a state in SE_K(3) to SE_K(3), does not move augmented contact columns, and leaves the biases unchanged.",
  "all states, measurements and time steps (also negative or zero)", "all reals", [PR+":Propagate"])
p("Propagation keeps the covariance symmetric positive semi-definite",
  "For a non-negative time step propagation maps a sym. PSD covariance to a sym. PSD covariance; this cannot be promised when time goes backwards.",
  "all states and measurements, dt >= 0", "all reals", [PR+":Propagate", PR+":DiscreteNoiseMatrix"])
p("Propagation is the exact strapdown integral",
  "For constant body rates and accelerations the propagated rotation, velocity and position are the exact solution of the strapdown equations; two steps of dt1 and dt2 equal one step of dt1+dt2 (no discretisation error), outside the small-angle cut-off.",
  "all inputs and time steps", "exact equality over all reals", [PR+":Propagate", LG+":Gamma_SO3"])
p("Log-linear error propagation",
  "With biases known, the invariant error between two trajectories driven by the same IMU input evolves exactly by the linear transition matrix used for the covariance (right-invariant in world frame), for every error size and with any number of contact columns.",
  "all pairs of states, inputs, time steps", "the defining theorem of the filter; cannot be tested for all errors", [PR+":StateTransitionMatrix", PR+":Propagate"])
p("Each IMU sample is integrated exactly once, over the right interval",
  "Over any run, the samples integrated are exactly the delivered samples in order, each once, with one sample of latency; the sum of the time steps telescopes to (time of last integrated - time of init); an empty queue changes nothing.",
  "all IMU streams and interleavings with the consumer", "unbounded histories and schedules", [PR+":Propagate", PR+":set_initial_state", ES+":RunOnce"])
p("Velocity measurements are consumed in order, at most once, never when stale",
  "Over any interleaving of producer pushes and Correct calls each velocity sample is applied at most once, in arrival order; no sample older than the propagated time by more than the threshold is ever applied; a false return means the state was untouched; a sample is dropped only if stale.",
  "all schedules and streams", "unbounded schedules", [VC+":Correct"])
p("No future velocity measurement is applied",
  "Correct never applies a velocity measurement whose time is not before the last propagated time (that is what its early return is for).",
  "all queues and thresholds", "needs a particular queue content", [VC+":Correct"])
p("Tracked contacts equal the feet in contact",
  "After every legged kinematics correction the set of augmented legs is exactly the set of legs whose contact flag was set in the measurement used, each with its own live column.",
  "all histories of contact patterns", "unbounded histories of 2^n contact patterns", [LC+":Correct"])
p("A new contact is consistent with the kinematics that created it",
  "A newly augmented contact position is p + R h, so re-measuring the same foot immediately gives zero innovation and leaves the state unchanged; the augmented covariance is sym. PSD and its marginal on the old state is the old covariance.",
  "all states, kinematics, covariances", "all reals", [LC+":Correct"])
p("Leg measurements outside the time window are not used",
  "Correct applies a leg measurement only if it is within the time threshold of the propagated time; otherwise the state is untouched.",
  "all queues", "needs particular time stamps", [LC+":Correct"])
p("The filter never hits undefined behaviour",
  "Starting from construction, every sequence of API calls following the documented protocol (bias init, state init, RunOnce, clear) in any order and with any sensor values meets no out-of-range block, dimension mismatch, null dereference or singular inversion.",
  "all histories, any sensor values with unit quaternions, any number of legs", "unbounded histories", [ES, PR, VC, LC, IK, RS])
p("RunOnce publishes exactly the states it computed",
  "RunOnce appends to each output queue at most one state, exactly when propagation or some correction succeeded, and it equals the state get_state() returns; otherwise nothing is published and the state is unchanged.",
  "all states and queue contents", "all branches times all queue contents", [ES+":RunOnce"])
p("Initialisation is complete and consistent",
  "InitState enables the filter only when an IMU sample is available and every correction delivered its first measurement; the state then has the IMU orientation (or identity), zero position, the velocity and time of the newest reading of the last correction, the configured initial covariances and the computed biases; one state is published and no queue retains measurements used by the initialisation; without an IMU sample nothing changes.",
  "all queue contents and configurations", "interaction of several queues and flags", [ES+":InitState", PR+":set_initial_state", VC+":initialize", LC+":initialize"])
p("Published time stamps never go backwards",
  "The time stamps of the states published by RunOnce are non-decreasing when the sensors deliver non-decreasing time stamps.",
  "all streams and schedules", "depends on interleaving of two streams", [ES+":RunOnce", VC+":Correct", LC+":Correct", PR+":Propagate"])
p("clear() forgets the past",
  "After clear() and re-initialisation the filter behaves like a freshly constructed one: estimates and logs do not depend on what happened before the clear.",
  "all histories before the clear", "quantifies over pairs of histories", [ES+":clear", RS+":clear", PR+":clear"])
p("Pose log keeps its rate",
  "Consecutive pose log lines are at least 1/rate apart in state time, each line shows time, position, orientation, velocity and body velocity of a state published by RunOnce, in order and without duplicates; a state the logging thread takes is logged exactly when 1/rate has passed since the last one logged (initially: since time 0), and only clear() makes states skip the logging thread.",
  "all streams and rates", "unbounded streams", [ES+":PoseLoggingThread"])
p("Log files of different runs and kinds never collide",
  "The file names opened by the constructor and by successive clear() calls are pairwise different so that no log overwrites another, and the base name is the configured one without its extension.",
  "all configured paths and any number of clears", "unbounded number of clears, all strings", [ES+":clear", ES+":InekfEstimator"])
p("Leg Jacobians are the derivatives of the leg positions",
  "For every leg, joint and joint configuration, the generated Jacobian Jp_Body_to_*Foot is the derivative of p_Body_to_*Foot with respect to the joints, depends only on that leg's three joints, and every output cell is written.",
  "all joint angles in R^12, 4 legs x 3 outputs x 12 joints", "machine generated formulas over all reals", ["src/kinematics/robots/mini_cheetah/p_Body_to_FrontRightFoot.cpp","src/kinematics/robots/mini_cheetah/Jp_Body_to_FrontRightFoot.cpp", MC+":ComputeKinematics"])
p("Leg transforms are rigid motions consistent with the positions",
  "For every leg the generated homogeneous transform H is in SE(3), its rotation part is the generated R and its translation is the generated p; the generated body and spatial Jacobians are the corresponding twists of H.",
  "all joint angles", "machine generated formulas", ["src/kinematics/robots/mini_cheetah/H_Body_to_FrontRightFoot.cpp","src/kinematics/robots/mini_cheetah/R_Body_to_FrontRightFoot.cpp"])
p("Initial velocity keeps the stance foot still",
  "The initial body velocity computed from the encoders is the velocity for which the first foot in contact has zero world velocity; it is zero if no foot is in contact.",
  "all joint angles, rates, body rates and contact patterns", "all reals", [MC+":get_init_velocity"])
p("IMU orientations are rotations",
  "An ImuMeasurement accepts exactly the quaternions whose squared norm is within 1e-5 of one, rejects the others without changing the stored value, and the rotation it returns for a unit quaternion is a rotation matrix; for an accepted one it is a rotation up to an explicit bound.",
  "all quaternions", "all reals", ["include/drift/measurement/impl/imu_impl.cpp:set_quaternion"])
p("Gyro filter covariance stays positive semi-definite",
  "Every propagation and correction of the angular-velocity EKF keeps its covariance symmetric PSD and its innovation covariance invertible, for all measurements; a correction never increases it.",
  "all histories and all values", "matrix inequalities over all histories", [IF+":AngVelFilterCorrectIMU", IF+":AngVelFilterCorrectEncoder", IF+":GyroPropagate", IF+":RandomWalkPropagate"])
p("Gyro filter consumes its inputs in order, once",
  "The angular velocity filter uses each delivered IMU or encoder sample at most once in time-stamp order, every output is the current estimate, and no stale input can block later inputs for ever.",
  "all schedules and streams", "unbounded schedules", [IF+":RunOnce", IF+":SingleImuCorrection", IF+":MultiImuCorrection", IF+":SingleImuAngVelCorrection"])
p("Wheel odometry integrates on the group",
  "Wheel odometry integrates each sample over its own interval (intervals telescope) and its pose stays in SE_2(3).",
  "all encoder/IMU streams", "unbounded streams", [WO+":RunOnce", WO+":Integrate"])
p("Wheel encoder messages convert to body velocity",
  "For every JointState message with enough entries the published body velocity is the average of left and right wheel speeds times the wheel radius and the yaw rate is their difference over the track width; shorter messages are rejected.",
  "all messages", "all lengths and values", [SUB+":DifferentialEncoder2VelocityCallback", SUB+":DifferentialEncoder2VelocityCallback_Fetch"])
p("Published pose covariance is the covariance of the published pose",
  "The 6x6 covariance in the published pose message is the covariance of (position, orientation) in the order the message type prescribes; path decimation publishes every k-th pose with k = pose rate / path rate.",
  "all states and rates", "all reals and all rates", [PUB+":PosePublish"])
p("Initial bias is the mean of the calibration window",
  "After static bias initialisation the gyro and accelerometer biases are exactly the mean over the collected window, the window has exactly the configured number of samples in arrival order, and no sample is lost or counted twice; with static initialisation off the configured priors are used.",
  "all streams and window sizes", "all streams; window size zero", [PR+":InitImuBias"])
p("A stationary robot does not drift",
  "If the robot is calibrated and initialised at rest and every IMU sample equals the calibration value, then after any number of propagation steps with any time stamps position, velocity and rotation are exactly unchanged.",
  "all numbers of steps, time stamps, mounting rotations, orientations", "unbounded number of steps; exact", [PR+":InitImuBias", PR+":Propagate", PR+":set_initial_state"])
p("Time stamps preserve order",
  "Converting a ROS (sec, nsec) stamp to the double used by the filter preserves the order of stamps and never maps distinct nanosecond stamps to the same time.",
  "all stamps", "2^62 pairs of stamps and floating point rounding", [SUB+":IMUCallback"])
p("Body- and world-frame accessors agree",
  "The body-frame velocity, position, rotation and matrix returned for a state are those of the inverse of its world-frame matrix, and setters/getters round-trip.",
  "all states", "all reals", [RS+":get_body_velocity", RS+":get_world_velocity", RS+":get_body_X"])
p("Published states are snapshots",
  "A copy of the state handed out (get_state, published queue) is never changed by later filter steps.",
  "all histories after the copy", "aliasing through shared pointers needs particular later deletions", [RS+":RobotState", RS+":del_aug_state", ES+":get_state"])
p("Left-invariant correction handles both error conventions",
  "CorrectLeftInvariant run on a covariance in right-invariant coordinates gives the same mean, and the transformed covariance, as run on the corresponding left-invariant covariance.",
  "all states and measurements", "coordinate-equivalence over all reals", [IK+":CorrectLeftInvariant"])
p("Augmented biases are stored and removed at the right place",
  "add_aug_bias / get_aug_bias / del_aug_bias store, return and remove the three entries of the addressed augmented bias and nothing else.",
  "all numbers of augmented biases and indices", "all sizes", [RS+":add_aug_bias", RS+":del_aug_bias", RS+":get_aug_bias"])
p("No sensor message is lost or duplicated by the queues",
  "For every interleaving of the subscriber threads and the filter thread, the concatenation of consumed and still queued messages of each sensor is exactly the sequence of delivered messages.",
  "all interleavings at lock granularity", "exponentially many schedules", ["ROS/drift/src/communication/ros_subscriber.cpp", PR+":Propagate", VC+":Correct", LC+":Correct"])
p("Slip detection is a chi-square test on the filter's own velocity",
  "The slip flag is set exactly when the Mahalanobis distance between measured and estimated body velocity exceeds the threshold, and the detection does not change the state estimate.",
  "all states and measurements", "all reals", [ES+":SlipEstimatorStep"])
p("Block-diagonal state copies are mutually inverse",
  "copy_diag_X(n, B) and copy_diag_Xinv(n, B) append n copies of the state matrix (its inverse) to the diagonal of B, with zeros elsewhere, so the two results built from empty matrices are mutually inverse.",
  "all n and all states", "all sizes", [RS+":copy_diag_X", RS+":copy_diag_Xinv"])
p("The right-invariant correction is the textbook invariant Kalman update",
  "CorrectRightInvariant uses a gain G with G(HPH^T+N)=PH^T, moves the mean by the matrix exponential of the group part of G Z from the left, adds the bias part (z gyro bias excepted) and stores the Joseph-form covariance (z gyro bias entry reset), in right-invariant coordinates whatever the stored convention.",
  "all states, measurements, K, both conventions, bias on/off", "all reals and sizes", [IK+":CorrectRightInvariant"])
p("The covariance transition matrix solves the linearised error dynamics",
  "The matrix the propagation step multiplies the covariance with is the value at dt of the flow of the linearised invariant error dynamics, biases included; in right-invariant coordinates it is the conjugate of the left-invariant one.",
  "all angular rates, accelerations, time steps and numbers of contacts", "a differential equation over all reals; errors only show up as slowly wrong covariances", [PR+":StateTransitionMatrix"])
p("Propagation does not depend on the error convention",
  "Running the propagation in left-invariant coordinates and re-expressing the covariance gives exactly the estimates and covariances of the run in right-invariant coordinates.",
  "all sample streams, states and numbers of contacts", "equivalence of two programs over all reals and histories", [PR+":Propagate", PR+":DiscreteNoiseMatrix"])
p("Innovations depend on the invariant error only",
  "If the true state is exp(xi) times the estimate and the body velocity (foot position) is measured exactly, the innovation the correction feeds to the filter is the right Jacobian of the rotation error applied to the velocity error (to the difference of foot and position errors), whatever the estimate: the observation model of the invariant filter.",
  "all estimates, all errors xi, all numbers of contacts", "all reals and sizes", [VC+":Correct", LC+":Correct"])
p("Initial velocity is consistent with later corrections",
  "The velocity the estimator starts with is the one the first velocity reading would be corrected to: applying the same reading as a correction right after initialisation gives a zero innovation, for every configured mounting rotation and velocity scale.",
  "all mounting rotations, scales, readings", "all reals and configurations", [VC+":initialize", VC+":Correct"])
p("The whole filter does not depend on the error convention",
  "Two estimators that differ only in the configured error convention, fed with the same history, publish the same estimates, times and log lines, and covariances that are the same up to the change of coordinates.",
  "all legal histories, all configurations", "pairs of unbounded histories over all reals", [ES, PR, IK, VC, LC])
p("Logged and published orientation is the state's rotation",
  "The quaternion written to the log and published is a unit quaternion whose rotation matrix is exactly the rotation of the state, on every branch of the conversion.",
  "all rotations", "all of SO(3), four branches with divisions", [ES+":PoseLoggingThread", "ROS/drift/src/communication/ros_publisher.cpp"])
p("Every accepted sensor arrangement of the gyro filter yields results",
  "For every combination of sensors the set-up calls accept, delivered samples eventually lead to filtered measurements, and starting the filter reads nothing that has not been set.",
  "all configurations, sensor arrangements and sample streams", "silence over unbounded histories", [IF+":RunOnce", IF+":InitializeFilter", IF+":SingleImuCorrection", IF+":MultiImuCorrection", IF+":AngVelCorrection"])
p("clear() of the gyro filter may be called at any time",
  "clear() discards the waiting samples and results and keeps the estimate, whenever another thread calls it.",
  "all interleavings with the filter thread", "schedules", [IF+":clear", IF+":SingleImuAngVelCorrection"])
p("Gyro dead reckoning telescopes",
  "While only propagation gyro samples arrive, the estimated rate moves by the last used gyro reading minus the one before the first used, the bias estimate is unchanged and the covariance grows by one process noise per sample used.",
  "all reachable filters and all sample streams", "unbounded histories over the reals", [IF+":GyroPropagate"])
p("Idle iterations of the gyro filter change nothing",
  "While no sample is waiting, iterations of the filter thread (whose number depends on the CPU speed) change neither the estimate nor its covariance.",
  "all reachable filters, all numbers of iterations", "depends on unbounded scheduling", [IF+":RunOnce", IF+":RandomWalkPropagate"])
p("Gyro filter calibration is the mean of the first N readings",
  "With static calibration over N samples the filter starts with zero rate and the mean of the first N delivered IMU rates as bias, and never before N samples have arrived.",
  "all windows N, streams and schedules", "unbounded sums", [IF+":InitializeFilter"])
p("flat_ground means what the configuration file says",
  "With flat_ground the filter enforces zero roll and pitch rates, without it the filter updates only the yaw rate and bias.",
  "all reachable filters, all measurements", "all histories over the reals", [IF+":ImuAngVelEKF", "config/neya_gyro_filter/imu_filter.yaml"])
p("Velocity from odometry is exact for constant twists","The velocity derived from two consecutive odometry poses of a source is the robot's body velocity, exactly, whenever the robot moves with constant twist and turns by less than pi between them; other sources' queues are untouched; equal stamps must not divide by zero.","all motions with constant twist, all mountings, all histories of messages","all reals; the matrix logarithm",[SUB+":Odom2VelocityCallback",SUB+":AddOdom2VelocityCallback"])
p("Each odometry source uses its own mounting","With several odometry sources, the velocity of each is computed with the mounting configured for that source.","all configurations with several sources","depends on the order of configuration and message arrival",[SUB+":AddOdom2VelocityCallback",SUB+":Odom2VelocityCallback"])
p("IMU messages are converted faithfully","An IMU message becomes one measurement with the same stamp, rates and accelerations; a zero quaternion means no orientation (identity), a unit quaternion is kept, any other is refused without queueing anything; the Fetch variant adds the offset message to the rates.","all messages","all reals",[SUB+":IMUCallback",SUB+":FetchIMUCallBack"])
p("Leg messages become usable measurements","A pair of contact and joint-state messages of sufficient length becomes one measurement with the contact message's time, whose kinematics can be computed and give the foot positions of the joint angles sent and the contacts sent; shorter messages must not be read past their end.","all pairs of messages","all lengths and values",[SUB+":MiniCheetahKinCallBack","src/kinematics/mini_cheetah_kinematics.cpp"])
p("The publisher survives a reset of the estimator","However the estimator's clear() interleaves with the publisher's threads, the publisher never takes from an empty queue, and it publishes a subsequence of the states pushed, in order.","all interleavings of push, clear and the publishing threads","unbounded interleavings",["ROS/drift/src/communication/ros_publisher.cpp:PosePublish","src/estimator/inekf_estimator.cpp:clear"])
p("The estimate turns with the heading","If every IMU orientation of a history is reported in a world turned about the vertical by some heading, every published state, queued log state and log line is the one of the original history turned by that heading: positions, velocities, orientation and contact points rotate, times and body velocities stay, and the covariance turns with its error convention; the run fails exactly when the original fails.","all headings, configurations with an orientation-reporting IMU, legal histories, both error conventions, all corrections","ranges over all headings and unbounded histories over the reals",["src/filter/inekf/propagation/imu_propagation.cpp:InitImuBias",ES+":RunOnce",ES+":InitState"])
p("The IMU orientation is ignored when configured so","With the IMU orientation switched off in the configuration, two histories that differ only in the orientations reported by the IMU give identical published states, covariances, queued log states, log lines, log files and failures.","all configurations with orientation off, all histories whatsoever, all orientation contents including non-unit ones","non-interference between two unbounded runs",["src/filter/inekf/propagation/imu_propagation.cpp:InitImuBias","src/filter/inekf/propagation/imu_propagation.cpp:set_initial_state",ES+":InitState"])
EXA="ROS/drift/examples/"
p("The shipped programs never fail",
  "Each example program with its shipped configuration files follows the estimator's call protocol and, whatever the sensors deliver (unit quaternions, stamps not going backwards) and however callbacks, publisher, logger and loop interleave, never hits undefined behaviour; everything it publishes or logs is a valid rotation with PSD covariance. The only way to get stuck is waiting in InitState for a correction without readings.",
  "all ten programs, all message sequences and interleavings", "unbounded schedules of a whole program",
  [EXA+"husky.cpp:main", EXA+"mini_cheetah.cpp:main", EXA+"fetch_gyro_filter.cpp:main", ES+":RunOnce"])
p("The shipped programs publish one pose per IMU sample",
  "After the configured number of calibration samples the filter starts with the next sample, not earlier; from then on each iteration that finds an IMU sample publishes exactly one state, so samples taken after calibration and states published by such iterations are equal in number; at most one iteration that finds a sample does not take one (the one that completes the calibration).",
  "all ten programs, all message sequences and interleavings", "exact counts over unbounded schedules",
  [EXA+"husky.cpp:main", ES+":InitBias", ES+":InitState", ES+":RunOnce"])
p("The programs with a gyro filter never fail",
  "In the shipped programs that put a gyro filter between the sensors and the estimator, filter thread and estimator together never hit undefined behaviour and publish and log only sound states, whatever the gyros, IMUs and encoders deliver (stamps not going backwards, unit orientations) and however the filter thread, main loop, callbacks, publisher and logger interleave.",
  "all programs with a gyro filter, all sensor streams and interleavings of two threads", "unbounded schedules of composed threads",
  [EXA+"fetch_gyro_filter.cpp:main", EXA+"neya_gyro_filter.cpp:main", EXA+"husky_double_imu_filter.cpp:main", EXA+"husky_gyro_filter.cpp:main", IF+":RunFilter", ES+":RunOnce"])
p("The gyro filter feeds the estimator in order and without stalling",
  "In those programs each correcting sample (encoder reading or IMU sample) yields at most one IMU sample for the estimator, in order and with its own stamp, carrying the orientation and acceleration of a delivered sample; readings keep passing, so the estimator goes on publishing.",
  "all programs with a gyro filter, all sensor streams and interleavings", "order and progress over unbounded schedules",
  [EXA+"fetch_gyro_filter.cpp:main", EXA+"husky_double_imu_filter.cpp:main", IF+":SingleImuCorrection", IF+":AngVelCorrection", IF+":SingleImuAngVelCorrection"])
p("The filter never pretends to know what it cannot observe",
  "The sensors (IMU, body velocity, feet relative to the body) cannot tell where the world's origin is nor how the world is turned about the vertical. Accordingly no sequence of propagations and corrections, with whatever readings, ever reduces the filter's uncertainty about a shift of the world, a turn of the world about the vertical, or a combination: every estimate it ever produces has at least the position covariance it was configured to start with and (right-invariant convention) at least the initial heading variance; only clear() can reset it.",
  "all configurations, all legal histories of any length, both error conventions, all directions", "consistency is about all histories and all directions; a test shows only the covariance of one run",
  [ES+":RunOnce", PR+":Propagate", PR+":StateTransitionMatrix", VC+":Correct", LC+":Correct", IK+":CorrectRightInvariant"])
p("A used reading leaves at most its own uncertainty",
  "A velocity reading that is used leaves the covariance of the velocity (in world axes) no larger than the configured covariance of the reading; a leg measurement that is used leaves, for every foot it reports in contact, the covariance of that foot relative to the body no larger than that of the measured foot position, and equal to it for a foot that has just touched down, however uncertain the filter was before.",
  "all states, covariances, readings, contact patterns, both error conventions", "matrix inequality over all PSD covariances and all contact sets",
  [VC+":Correct", LC+":Correct", IK+":CorrectRightInvariant"])
p("Perfect sensors give the exact trajectory",
  "If InitState starts on the true trajectory, the IMU samples describe the true motion (constant body rate and specific force between samples, the estimator's own biases) and every velocity or leg reading that RunOnce uses is correct for the true pose at the propagated time, then every published estimate is exactly on the true trajectory, the biases never move, and every stored foot position is exactly where the foot stands - whatever the noise settings, covariances, error convention, set of corrections and order of calls. In particular a robot driving a circle stays on it for ever and a standing legged robot that lifts and puts down its feet does not move.",
  "all configurations, true trajectories, legal histories of any length, both error conventions", "exactness over unbounded histories and over all gains; tests only see small residuals of finite runs",
  [ES+":RunOnce", PR+":Propagate", VC+":Correct", LC+":Correct", IK+":CorrectRightInvariant"])
p("The origin of the clock does not matter",
  "If every sensor's time stamps are moved by the same amount (another epoch, another boot time), the history stays legal and the estimator publishes exactly the same states, covariances and contacts, only their time stamps moved by that amount.",
  "all offsets, configurations, legal histories of any length", "relates two unbounded runs over the reals",
  [ES+":RunOnce", ES+":InitState", PR+":Propagate", VC+":Correct", LC+":Correct"])
p("The interleaving of callbacks and background threads does not matter",
  "Only the order of operations on one shared resource matters (each sensor queue, the queue of published states, the queue of the logger, the log files, the estimate itself): two histories that agree on it resource by resource end in the same estimator and publish the same states. The reader of published states and the logging thread never influence the estimate. An IMU sample (or reader) may come before or after a RunOnce that does not find its queue empty, and a reading delivered just before a call is the same as one that arrives before the first critical section of its correction during the call.",
  "all configurations, legal histories, interleavings", "exponentially many schedules of unbounded histories",
  [ES+":RunOnce", ES+":PoseLoggingThread", SUB+":IMUCallback", VC+":Correct", LC+":Correct"])
p("A complete ROS node turns every message into the right pose message",
  "For each shipped ROS program without a gyro filter, whatever messages arrive and however the subscriber callbacks, the main loop, the pose and path publishers and the logging thread interleave: there is no undefined behaviour (the only way not to go on is an iteration that waits for a velocity or leg reading that never comes); the estimator is fed exactly the samples and readings that the messages stand for, in order; the pose messages on the topic say, in order and without gap or repetition, the states the estimator published; every iteration that finds a sample waiting consumes it and all but the calibration window are published; a pass of the pose thread sends the oldest waiting state; the path is every tenth pose sent.",
  "all well-formed message streams, interleavings, history lengths, shipped programs", "exponentially many schedules of unbounded message streams through five threads",
  [EXA+"husky.cpp:main", EXA+"mini_cheetah.cpp:main", SUB+":IMUCallback", PUB+":PosePublish", ES+":RunOnce"])
p("A parked robot stays where it is",
  "If the robot does not move - every IMU sample has the same readings, whatever the biases and the tilt, and the wheels (or legs) report no motion - then, whatever the order of calls, callbacks and threads, the estimator calibrates itself, starts, and every state it publishes is the origin with zero velocity and the initial orientation; every pose message of a shipped wheeled ROS node that calibrates itself (Fetch, Husky, Neya) says: at the origin, not turned - for ever.",
  "all configurations that account for the readings, readings, noise settings, interleavings, history lengths", "no drift over unbounded histories, for all readings and schedules",
  [ES+":InitBias", ES+":InitState", ES+":RunOnce", PR+":InitImuBias", PUB+":PosePublish", EXA+"husky.cpp:main"])
p("One iteration is the textbook filter step with the configured parameters",
  "In any running state RunOnce does exactly this to the estimate: if an IMU sample waits, the state is predicted over the sample in turn - the mean is the exact integral of the strapdown equations with the rates of that sample (mounting, lever arm, biases as configured), the covariance is Phi P Phi^T + dt (Phi G) Q (Phi G)^T with the configured noise densities (squares of the configured standard deviations, stated defaults), contacts and biases as documented -; then each configured correction, in the order of the configuration, drops its stale readings, uses at most one that is not stale, and applies the textbook invariant update with its configured noise, mounting, scale and time window; nothing else happens to the estimate. InitState starts with the configured biases or with the means over the first samples of the IMU stream.",
  "all configurations, legal histories of any length, readings, contact patterns, arrival schedules, both error conventions", "every parameter of the configuration file, every contact pattern and every reachable covariance at once; a wrong default or a swapped parameter is invisible to a test that does not set it",
  [ES+":RunOnce", ES+":InitState", PR+":Propagate", PR+":ImuPropagation", PR+":InitImuBias", VC+":VelocityCorrection", VC+":Correct", LC+":LeggedKinematicsCorrection", LC+":Correct"])
p("One iteration of the gyro filter is the textbook Kalman step with the configured parameters",
  "In any initialised state of the gyro filter reached by a configuration file, add_ calls and a history of samples and iterations, RunOnce does exactly this: with gyro propagation the next sample of the gyro stream, if one waits, moves the rate by its difference from the gyro sample before it and adds the configured process noise (squares of the configured standard deviations or defaults) to the covariance - without gyro propagation the noise is added in every iteration; the correction method follows from the sensors added, else from the configuration; a correction takes the sample in turn, uses it only within the configured time threshold, and is the Kalman update of what that sensor sees of rate and bias (all axes or the vertical one as configured) with the configured noise, an encoder rate being turned by the inverse of the configured mounting; each result carries the new rate, the time of the sample used and orientation and acceleration of an IMU sample. The first estimate has zero rate and the configured bias, or the mean over the configured number of calibration samples, with the configured covariance.",
  "all configurations, sets of sensors, histories of any length, readings", "every parameter and every reachable estimate and covariance at once; a wrong default or a swapped parameter is invisible to a test that does not set it",
  [IF+":RunOnce", IF+":ImuAngVelEKF", IF+":GyroPropagate", IF+":RandomWalkPropagate", IF+":SingleImuCorrection", IF+":SingleImuAngVelCorrection", IF+":MultiImuCorrection", IF+":AngVelCorrection", IF+":InitializeFilter"])
p("State objects hold what was stored in them",
  "RobotState and SEK3: a constructor gives exactly the mean, biases and covariance asked for (zero biases and identity covariance by default), with no landmark, time or noise; each setter changes the block of its quantity and nothing else, and each getter reads the quantity it names - the covariance getters the covariance of that quantity, whatever landmarks were added and removed; an object built from (R, p, v) has orientation R, position p and velocity v.",
  "all matrices, vectors, covariances, numbers of columns, histories of landmarks and updates", "index arithmetic over all sizes and histories; the bias blocks move when landmarks appear",
  [RS+":RobotState", RS+":set_rotation", RS+":set_velocity", RS+":set_position", RS+":set_aug_state", RS+":set_gyroscope_bias", RS+":set_rotation_covariance", RS+":get_gyroscope_bias_covariance", RS+":get_accelerometer_bias_covariance", RS+":add_aug_cov", SK+":SEK3", SK+":set_R"])
p("Claiming less uncertainty never yields more",
  "The filter is monotone in what it is told about uncertainty: two runs that apply the same right-invariant corrections (any number, whatever the residuals and estimates) end with covariances in the same Loewner order in which they started, as long as the measurement noises are so ordered; the same holds for any number of propagations of one trajectory when the initial covariances and the configured noise strengths are ordered, and smaller standard deviations in the configuration are smaller noise strengths.",
  "all covariances, noises, observation matrices, samples, numbers of steps, numbers of contacts", "matrix inequality between two runs over all PSD matrices; a test compares two numbers",
  [IK+":CorrectRightInvariant", PR+":Propagate", PR+":DiscreteNoiseMatrix", PR+":ImuPropagation"])
p("Only the ratios of the noise parameters matter",
  "With the bias estimation off, multiplying every configured standard deviation (IMU, velocity, encoder, kinematics, contacts, initial uncertainties; written or default) by the same factor changes nothing but the covariances, which are multiplied by the square of the factor: same protocol, same failures, same poses, velocities, contacts, biases and times published in the same order, same log lines in the same files. The bias noises have no influence at all.",
  "all configurations with bias estimation off, factors, legal histories of any length, contact patterns, both error conventions", "relates two unbounded runs over the reals for all factors; hard-coded constants in the covariance (the filter has some) could break it anywhere",
  [ES+":RunOnce", ES+":InitState", IK+":CorrectRightInvariant", PR+":Propagate", VC+":Correct", LC+":Correct"])
p("The mirror image of a robot is estimated as the mirror image",
  "Take a robot (any number of velocity sensors, at most one leg sensor) and its mirror image, left and right or front and back exchanged: every velocity, acceleration, foot position, lever arm and accelerometer bias changes the sign of one coordinate, every angular velocity and gyroscope bias that of the two others, reported and mounting orientations and the foot Jacobians accordingly. Called in the same way, the estimator of the mirrored robot follows the same protocol, fails when and how the first does, publishes exactly the mirror images of the first one's states in the same order (orientation, velocity, position, biases, noise and every entry of the covariance with the signs of the mirror, same times), tracks the same legs, and logs the mirror images of its lines to the same files. In particular a robot whose settings and readings are their own mirror image is estimated on the mirror for ever: no velocity, position or foot off it, no turn out of it, errors along and across it exactly uncorrelated. For instance whoever drives straight ahead (no sideways component in any reading, turning at most in pitch, sensors mounted accordingly) is never estimated or logged sideways and never turned in heading or roll.",
  "both mirrors, all configurations with at most one leg correction, legal histories of any length, both error conventions, bias estimation on or off", "relates two unbounded runs over the reals; one wrong sign in the transition matrix, the adjoint, a cross product or the innovation breaks it for some motion only",
  [ES+":RunOnce", ES+":InitState", IK+":CorrectRightInvariant", PR+":Propagate", PR+":InitImuBias", VC+":Correct", VC+":initialize", LC+":Correct", LC+":initialize"])
out=os.path.join(os.path.dirname(__file__),"..","properties.jsonl")
with open(out,"w") as f:
    for x in P: f.write(json.dumps(x)+"\n")
print(len(P))
