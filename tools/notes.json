{
 "C05": {
  "status": "partial",
  "note": "get_Xinv is the inverse for every K and SEK3 multiplication/identity laws hold; SEK3::inverse itself drops every column after the fifth (se_k_3.cpp), refuted by C05_SEK3_inverse_refuted."
 },
 "C09": {
  "status": "partial",
  "note": "False of the code: add_aug_state copies only the top-left dimX x dimX corner of Qc (robot_state.cpp:137-164), so only the newest contact keeps its noise; refuted, and exact behaviour proved for all histories."
 },
 "C45": {
  "status": "partial",
  "note": "World accessors, rotation and matrix accessors proved; get_body_velocity/get_body_position have the opposite sign of the inverse matrix's columns (robot_state.cpp:238-259), refuted."
 },
 "C46": {
  "status": "partial",
  "note": "Proved for estimator histories with no leg lifted in between, and always for the numeric part (C46_published_ids_partial). False in general for the column ids: copies share the shared_ptr<int> ids and del_aug_state decrements through them (C46_*_refuted)."
 },
 "C48": {
  "status": "partial",
  "note": "add_aug_bias proved; del_aug_bias uses start = idx-5+6 and get_aug_bias ignores its index, so only the first/last are right; refuted in general."
 },
 "C47": {
  "status": "partial",
  "note": "False of the code: inekf.cpp:125 tests LeftInvariant where RightInvariant is needed; exact behaviour proved, claim refuted."
 },
 "C18": {
  "status": "proved",
  "note": "For steps with zero rate or a rotation angle of at least the code's cut-off 1e-10, as the property says; below it the code uses first terms of the series."
 },
 "C17": {
  "status": "proved",
  "note": "Includes a concrete counterexample for a negative time step, as the property says."
 },
 "C42": {
  "status": "proved",
  "note": "For a positive window; the default window size 0 divides by zero and a negative one never ends (proved)."
 },
 "C43": {
  "status": "partial",
  "note": "False in general: calibration removes a centripetal term computed from the raw rate and gravity seen from Rib*R instead of R (imu_propagation.cpp:434-461 vs 149-161, 491-532). Exact drift proved for every mounting; zero drift under the stated mounting conditions; refuted otherwise."
 },
 "C53": {
  "status": "partial",
  "note": "Proved for rates of at least 1e-6 rad/s; below that Phi25L/Phi35L use integer divisions 1/2, 1/6 = 0 (imu_propagation.cpp:266-312), refuted."
 },
 "C22": {
  "status": "partial",
  "note": "False of the code: the 'not in the past' check guards only the first sample fetched by a call (velocity_correction.cpp:84-98); after discarding a stale sample the loop (101-113) takes the next one without it. Proved: the head sample is used only if strictly before the propagated time; refuted: a later sample from the future is applied."
 },
 "C25": {
  "status": "partial",
  "note": "False of the code on the future side: t_diff > threshold only prints (legged_kinematics_correction.cpp:60-94). Proved for the stale side, with exact consumption order, for every reachable object; refuted by a measurement from the future being used."
 },
 "C26": {
  "status": "proved",
  "note": "For unit-quaternion IMU streams with non-decreasing stamps, a positive calibration window and non-zero measurement noise, at most one legged correction. InitState during which a correction never gets data loops for ever (the only failure)."
 },
 "C29": {
  "status": "partial",
  "note": "False of the code: a velocity reading within the threshold but before the last published time sets the state's time back (velocity_correction.cpp:115). Proved: propagated times are monotone, published ones lag at most the threshold; refuted on a concrete legal history."
 },
 "C32": {
  "status": "partial",
  "note": "Exact condition for collisions proved (C32_exact_condition); nine of the ten shipped programs are safe, mini_cheetah gives both files one name. False in general: equal names collide, and names such as ./log/pose are cut at the directory's dot (inekf_estimator.cpp:52-59). Proved for all other names and any number of clears."
 },
 "C50": {
  "status": "partial",
  "note": "False of the code: the test uses a fixed 0.001*I instead of the computed Sigma and the last column of the state instead of a velocity difference (inekf_estimator.cpp:336-364); the exact behaviour is proved, and that the estimator never runs it."
 },
 "C56": {
  "status": "partial",
  "note": "Proved when the velocity sensor frame is the body frame and the scale is 1 (the default configuration). False in general: VelocityCorrection::initialize applies neither R_vel2body_ nor velocity_scale_ (velocity_correction.cpp:148-172). Refuted."
 },
 "C38": {
  "status": "partial",
  "note": "Proved for all arrangements but several IMUs; with an encoder no input can block. False in general: with one IMU and gyro propagation a stale sample stays at the head of the queue for ever (imu_ang_vel_ekf.cpp:556-571), and with several IMUs fused_ang_imu is kept between buffers and pushed again (574-603)."
 },
 "C59": {
  "status": "partial",
  "note": "False of the code: five arrangements proved silent or undefined, one working arrangement proved."
 },
 "C60": {
  "status": "partial",
  "note": "Proved between iterations; refuted during one (pop of an emptied queue) and without an encoder buffer (null dereference)."
 },
 "C62": {
  "status": "partial",
  "note": "Proved with gyro propagation; false without it: RandomWalkPropagate adds Q in every loop iteration (imu_ang_vel_ekf.cpp:770-776)."
 },
 "C63": {
  "status": "proved",
  "note": "Includes the behaviour of a zero window (division by zero)."
 },
 "C64": {
  "status": "partial",
  "note": "flat_ground=false behaves as described; flat_ground=true estimates roll and pitch instead of zeroing them (imu_ang_vel_ekf.cpp:140-153), refuted."
 },
 "C39": {
  "status": "partial",
  "note": "Dead reckoning per interval, exact rotation, exact straight motion proved; the stored 5x5 matrix is not in SE_2(3) (built from Ones(5,5)) and the position is one Euler step while turning: refuted."
 },
 "C40": {
  "status": "partial",
  "note": "Conversion proved; only the Fetch callbacks reject short messages, the four-wheel ones read out of range (refuted)."
 },
 "C41": {
  "status": "partial",
  "note": "Order, contents and decimation proved; the covariance sent is that of (orientation, velocity), refuted; a path rate above the pose rate divides by zero."
 },
 "C65": {
  "status": "partial",
  "note": "Exact for constant twist; Eigen's matrix log is modelled by the closed-form principal logarithm; equal stamps divide by zero."
 },
 "C66": {
  "status": "partial",
  "note": "Proved when all added sources share one mounting (C66_same_mounting_partial). False in general: the mounting is shared, the last source added wins (refuted)."
 },
 "C68": {
  "status": "partial",
  "note": "Proved for long enough messages; shorter ones are read out of range (refuted)."
 },
 "C69": {
  "status": "partial",
  "note": "Proved for uninterrupted passes; refuted for a clear between the emptiness test and the pop."
 },
 "C44": {
  "status": "partial",
  "note": "Binary64 (Flocq) model of sec + nsec/1e9: order preserved for all 32-bit stamps, error at most 239 ns, stamps at least 500 ns apart stay distinct. Injectivity at nanosecond resolution is false: C44_distinct_refuted gives present-day stamps 100 ns apart that collide."
 },
 "C57": {
  "status": "partial",
  "note": "Proved for every configuration and legal history whose initialisations have zero velocity (propagation, velocity and leg corrections, contacts appearing and disappearing, clear, logging). False with a non-zero initial velocity: InitState writes the same diagonal covariance in both conventions (inekf_estimator.cpp:264-272); refuted."
 },
 "C30": {
  "status": "partial",
  "note": "Proved for all pairs of legal pasts with equal calibration state (everything between calibration and clear() is forgotten: estimates, published numbers, queues, failures). False for the calibration itself and for the log rate limiter: both survive clear(); refuted with legal histories."
 },
 "C70": {
  "status": "partial",
  "note": "Proved for every configuration that takes its orientation from the IMU and whose calibration (if any) sees a mounting about the vertical, both conventions, all corrections, every legal history. False with static calibration and a tilted mounting: InitImuBias multiplies the orientation by the mounting rotation on the wrong side (Rib*R(q)), so the accelerometer bias depends on the heading; refuted."
 },
 "C71": {
  "status": "proved",
  "note": "Every history, legal or not, both conventions; failures included."
 },
 "C74": {
  "status": "partial",
  "note": "Proved for the three programs built from the configuration file constructor (gyro+encoder, gyro+IMU with and without calibration). Refuted for husky_gyro_filter, whose filter object is built with the other constructor and reads its uninitialised calibration length in its first iteration. The shared buffer of filtered samples is modelled as handed over at the end of each filter iteration."
 },
 "C75": {
  "status": "partial",
  "note": "Order, stamps and content proved for the three working programs; progress proved for gyro+encoder. Refuted: with two IMUs a lag of more than the threshold stops the program for ever; with IMU+encoder (husky_gyro_filter) the estimator can get samples out of order."
 },
 "C76": {
  "status": "proved",
  "note": "The invariance theorem covers both conventions and every direction (w,a); the heading floor in terms of the configured value is stated for the right-invariant convention (in the left-invariant one the initial covariance itself ties heading to the initial velocity, so the value to start from is a different one; the invariance theorem still applies from there)."
 },
 "C77": {
  "status": "proved",
  "note": "Stated about one call on any reachable correction object; at most the readings' own covariance in world axes."
 },
 "C78": {
  "status": "proved",
  "note": "Between two samples the true rate and specific force are constant and the turn is zero or above the code's small-angle threshold TOLERANCE (below it exp_so3 rounds to the identity). The biases assumed true are the ones the estimator starts with."
 },
 "C79": {
  "status": "proved",
  "note": "The pose log is not part of the claim: its rate limiter starts from time 0 (last_pub_t_), so which lines are written near time 0 does depend on the origin (C31 states exactly which; C79_log_depends_on_origin exhibits it)."
 },
 "C80": {
  "status": "proved",
  "note": "Granularity: one critical section of a thread = one step; data races on unlocked reads are outside the model."
 },
 "C81": {
  "status": "proved",
  "note": "Granularity of C80. Readings arriving during an iteration are given in converted form. The velocity an odometry message stands for is C65's; programs with a gyro filter are C74/C75."
 },
 "C82": {
  "status": "proved",
  "note": "Readings constant in time; the IMU's own orientation must not be used (true of all shipped programs) and the lever arm must not lie across the turn-rate bias (see C43). For legs the velocity computed from the raw rate must be zero (finding: InitState uses the raw rate)."
 },
 "C83": {
  "status": "proved",
  "note": "Mean: exact for rates that are zero or not below the code's 1e-10 tolerance (C16, C20). The transition matrix Phi is the one C19 and C53 characterise. Biases: without a clear() in between (C30: the calibration survives a clear)."
 },
 "C84": {
  "status": "proved",
  "note": "Configuration constructor (the one the shipped programs use). Iterations not hit by another thread's clear(); the covariance claims of C37 cover that case too. The initial mean needs a history without clear() when calibration is on."
 },
 "C85": {
  "status": "partial",
  "note": "Setters, getters of mean and biases, constructors from matrices and SEK3 proved. False of the code: RobotState(SEK3&) copies (R, p, v) into (R, v, p) and makes three biases per vector column (robot_state.cpp:56-64); the bias covariance getters and setters use fixed rows 9 and 12 (robot_state.cpp:117-122, 315-320), which belong to landmarks once there are any; add_aug_cov appends behind the biases (325-329) where get_aug_cov does not look. Exact behaviour proved, claims refuted."
 },
 "C86": {
  "status": "proved",
  "note": "Corrections in right-invariant coordinates, error convention of the state arbitrary. Propagation and correction do not chain for two runs with different residuals: the discretised noise depends on the mean."
 },
 "C87": {
  "status": "proved",
  "note": "Bias estimation off (all shipped configurations). The covariance entries of the biases (reset to 0.0001 by each correction) are not compared; with bias estimation on these hard-coded resets feed back into the estimate."
 },
 "C88": {
  "status": "proved",
  "note": "Whole configurations, legs included (at most one leg correction, as everywhere). Leg identifiers are labels: a leg and its mirror image carry the same one, so an implementation that ties behaviour to the left-right numbering of a particular robot's legs is outside the statement."
 }
}