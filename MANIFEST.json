{
 "claims": [
  {
   "property": "C01",
   "status": "proved",
   "theorems": [
    "C01_skew_is_cross",
    "C01_exp_is_rotation",
    "C01_jacobians"
   ],
   "note": ""
  },
  {
   "property": "C02",
   "status": "proved",
   "theorems": [
    "C02_gamma_is_series",
    "C02_gamma_small_angle",
    "C02_gamma_rejects"
   ],
   "note": ""
  },
  {
   "property": "C03",
   "status": "proved",
   "theorems": [
    "C03_exp_sek3_group",
    "C03_exp_sek3_is_matrix_exponential"
   ],
   "note": ""
  },
  {
   "property": "C04",
   "status": "proved",
   "theorems": [
    "C04_adjoint"
   ],
   "note": ""
  },
  {
   "property": "C05",
   "status": "partial",
   "theorems": [
    "C05_state_inverse",
    "C05_SEK3_group",
    "C05_SEK3_inverse_refuted"
   ],
   "note": "get_Xinv is the inverse for every K and SEK3 multiplication/identity laws hold; SEK3::inverse itself drops every column after the fifth (se_k_3.cpp), refuted by C05_SEK3_inverse_refuted."
  },
  {
   "property": "C06",
   "status": "proved",
   "theorems": [
    "C06_dimensions"
   ],
   "note": ""
  },
  {
   "property": "C07",
   "status": "proved",
   "theorems": [
    "C07_ids_designate_their_landmark"
   ],
   "note": ""
  },
  {
   "property": "C08",
   "status": "proved",
   "theorems": [
    "C08_delete_marginalises",
    "C08_add_then_delete"
   ],
   "note": ""
  },
  {
   "property": "C09",
   "status": "partial",
   "theorems": [
    "C09_only_newest_contact_has_noise_partial",
    "C09_contact_noise_refuted"
   ],
   "note": "False of the code: add_aug_state copies only the top-left dimX x dimX corner of Qc (robot_state.cpp:137-164), so only the newest contact keeps its noise; refuted, and exact behaviour proved for all histories."
  },
  {
   "property": "C10",
   "status": "proved",
   "theorems": [
    "C10_corrections_stay_on_group"
   ],
   "note": ""
  },
  {
   "property": "C11",
   "status": "proved",
   "theorems": [
    "C11_corrections_keep_covariance"
   ],
   "note": ""
  },
  {
   "property": "C12",
   "status": "proved",
   "theorems": [
    "C12_correction_never_increases_uncertainty",
    "C12_gain_is_optimal"
   ],
   "note": ""
  },
  {
   "property": "C13",
   "status": "proved",
   "theorems": [
    "C13_convention_independent"
   ],
   "note": ""
  },
  {
   "property": "C14",
   "status": "proved",
   "theorems": [
    "C14_disabled_biases_are_frozen",
    "C14_yaw_bias_never_changes"
   ],
   "note": ""
  },
  {
   "property": "C15",
   "status": "proved",
   "theorems": [
    "C15_zero_innovation"
   ],
   "note": ""
  },
  {
   "property": "C16",
   "status": "proved",
   "theorems": [
    "C16_propagation_stays_on_group"
   ],
   "note": ""
  },
  {
   "property": "C17",
   "status": "proved",
   "theorems": [
    "C17_propagation_keeps_covariance",
    "C17_constructed_noise_is_ok",
    "C17_backward_step_breaks_it"
   ],
   "note": "Includes a concrete counterexample for a negative time step, as the property says."
  },
  {
   "property": "C18",
   "status": "proved",
   "theorems": [
    "C18_exact_strapdown_integral",
    "C18_strapdown_solution_exists",
    "C18_no_discretisation_error"
   ],
   "note": "For steps with zero rate or a rotation angle of at least the code's cut-off 1e-10, as the property says; below it the code uses first terms of the series."
  },
  {
   "property": "C19",
   "status": "proved",
   "theorems": [
    "C19_loglinear_error"
   ],
   "note": ""
  },
  {
   "property": "C20",
   "status": "proved",
   "theorems": [
    "C20_each_sample_once",
    "C20_uninitialised_dereferences_null"
   ],
   "note": ""
  },
  {
   "property": "C21",
   "status": "proved",
   "theorems": [
    "C21_velocity_samples_in_order_once",
    "C21_fresh_sample_is_applied",
    "C21_velocity_correction_total"
   ],
   "note": ""
  },
  {
   "property": "C22",
   "status": "partial",
   "theorems": [
    "C22_future_sample_not_used_partial",
    "C22_future_sample_used_refuted"
   ],
   "note": "False of the code: the 'not in the past' check guards only the first sample fetched by a call (velocity_correction.cpp:84-98); after discarding a stale sample the loop (101-113) takes the next one without it. Proved: the head sample is used only if strictly before the propagated time; refuted: a later sample from the future is applied."
  },
  {
   "property": "C23",
   "status": "proved",
   "theorems": [
    "C23_tracked_legs_are_the_contacts",
    "C23_leg_correction_total"
   ],
   "note": ""
  },
  {
   "property": "C24",
   "status": "proved",
   "theorems": [
    "C24_touchdown",
    "C24_remeasure"
   ],
   "note": ""
  },
  {
   "property": "C25",
   "status": "partial",
   "theorems": [
    "C25_stale_not_used_partial",
    "C25_future_used_refuted"
   ],
   "note": "False of the code on the future side: t_diff > threshold only prints (legged_kinematics_correction.cpp:60-94). Proved for the stale side, with exact consumption order, for every reachable object; refuted by a measurement from the future being used."
  },
  {
   "property": "C26",
   "status": "proved",
   "theorems": [
    "C26_no_undefined_behaviour",
    "C26_no_failure_when_fed"
   ],
   "note": "For unit-quaternion IMU streams with non-decreasing stamps, a positive calibration window and non-zero measurement noise, at most one legged correction. InitState during which a correction never gets data loops for ever (the only failure)."
  },
  {
   "property": "C27",
   "status": "proved",
   "theorems": [
    "C27_run_once_publishes"
   ],
   "note": ""
  },
  {
   "property": "C28",
   "status": "proved",
   "theorems": [
    "C28_init_state"
   ],
   "note": ""
  },
  {
   "property": "C29",
   "status": "partial",
   "theorems": [
    "C29_published_times_partial",
    "C29_published_times_refuted"
   ],
   "note": "False of the code: a velocity reading within the threshold but before the last published time sets the state's time back (velocity_correction.cpp:115). Proved: propagated times are monotone, published ones lag at most the threshold; refuted on a concrete legal history."
  },
  {
   "property": "C30",
   "status": "partial",
   "theorems": [
    "C30_clear_forgets_partial",
    "C30_clear_after_calibration",
    "C30_calibration_survives_refuted",
    "C30_log_clock_survives_refuted",
    "C30_cleared_state"
   ],
   "note": "Proved for all pairs of legal pasts with equal calibration state (everything between calibration and clear() is forgotten: estimates, published numbers, queues, failures). False for the calibration itself and for the log rate limiter: both survive clear(); refuted with legal histories."
  },
  {
   "property": "C31",
   "status": "proved",
   "theorems": [
    "C31_log_keeps_rate"
   ],
   "note": ""
  },
  {
   "property": "C32",
   "status": "partial",
   "theorems": [
    "C32_log_files_partial",
    "C32_exact_condition",
    "C32_shipped_programs_partial",
    "C32_mini_cheetah_refuted",
    "C32_extension_removed",
    "C32_no_extension",
    "C32_log_files_refuted"
   ],
   "note": "Exact condition for collisions proved (C32_exact_condition); nine of the ten shipped programs are safe, mini_cheetah gives both files one name. False in general: equal names collide, and names such as ./log/pose are cut at the directory's dot (inekf_estimator.cpp:52-59). Proved for all other names and any number of clears."
  },
  {
   "property": "C33",
   "status": "proved",
   "theorems": [
    "C33_jacobian_is_derivative",
    "C33_jacobian_entries",
    "C33_positions_are_the_leg_chains",
    "C33_compute_kinematics",
    "C33_leg_measurement",
    "C33_object_shapes"
   ],
   "note": ""
  },
  {
   "property": "C34",
   "status": "proved",
   "theorems": [
    "C34_transforms_and_twists"
   ],
   "note": ""
  },
  {
   "property": "C35",
   "status": "proved",
   "theorems": [
    "C35_stance_foot_is_still",
    "C35_no_contact",
    "C35_default_object_fails"
   ],
   "note": ""
  },
  {
   "property": "C36",
   "status": "proved",
   "theorems": [
    "C36_quaternion_accepted_iff_near_unit",
    "C36_unit_quaternion_is_rotation",
    "C36_accepted_quaternion_is_nearly_rotation",
    "C36_history"
   ],
   "note": ""
  },
  {
   "property": "C37",
   "status": "proved",
   "theorems": [
    "C37_covariance_psd",
    "C37_correction_is_kalman_and_decreases"
   ],
   "note": ""
  },
  {
   "property": "C38",
   "status": "partial",
   "theorems": [
    "C38_one_iteration_partial",
    "C38_history_partial",
    "C38_no_blocking_with_encoder_partial",
    "C38_stale_blocks_refuted",
    "C38_duplicate_output_refuted"
   ],
   "note": "Proved for all arrangements but several IMUs; with an encoder no input can block. False in general: with one IMU and gyro propagation a stale sample stays at the head of the queue for ever (imu_ang_vel_ekf.cpp:556-571), and with several IMUs fused_ang_imu is kept between buffers and pushed again (574-603)."
  },
  {
   "property": "C39",
   "status": "partial",
   "theorems": [
    "C39_dead_reckoning",
    "C39_one_pair_per_call",
    "C39_log",
    "C39_exact_rotation_and_straight_motion",
    "C39_matrix_in_group_refuted",
    "C39_turning_position_refuted",
    "C39_zero_stamp_refuted"
   ],
   "note": "Dead reckoning per interval, exact rotation, exact straight motion proved; the stored 5x5 matrix is not in SE_2(3) (built from Ones(5,5)) and the position is one Euler step while turning: refuted."
  },
  {
   "property": "C40",
   "status": "partial",
   "theorems": [
    "C40_four_wheels",
    "C40_fetch",
    "C40_fetch_rejects_short",
    "C40_rejects_short_refuted",
    "C40_zero_track_width",
    "C40_stamp_in_seconds"
   ],
   "note": "Conversion proved; only the Fetch callbacks reject short messages, the four-wheel ones read out of range (refuted)."
  },
  {
   "property": "C41",
   "status": "partial",
   "theorems": [
    "C41_every_state_published_once",
    "C41_pose_pass",
    "C41_path_is_every_kth_pose",
    "C41_estimator_states_are_publishable",
    "C41_covariance_sent",
    "C41_pose_covariance_refuted",
    "C41_fast_path_refuted"
   ],
   "note": "Order, contents and decimation proved; the covariance sent is that of (orientation, velocity), refuted; a path rate above the pose rate divides by zero."
  },
  {
   "property": "C42",
   "status": "proved",
   "theorems": [
    "C42_bias_is_mean_of_window",
    "C42_priors_without_calibration",
    "C42_empty_window_divides_by_zero",
    "C42_negative_window_never_ends"
   ],
   "note": "For a positive window; the default window size 0 divides by zero and a negative one never ends (proved)."
  },
  {
   "property": "C43",
   "status": "partial",
   "theorems": [
    "C43_drift_of_a_robot_at_rest",
    "C43_stationary_robot_partial",
    "C43_stationary_robot_refuted"
   ],
   "note": "False in general: calibration removes a centripetal term computed from the raw rate and gravity seen from Rib*R instead of R (imu_propagation.cpp:434-461 vs 149-161, 491-532). Exact drift proved for every mounting; zero drift under the stated mounting conditions; refuted otherwise."
  },
  {
   "property": "C44",
   "status": "partial",
   "theorems": [
    "C44_order_preserved",
    "C44_error_bound",
    "C44_distinct_partial",
    "C44_distinct_refuted"
   ],
   "note": "Binary64 (Flocq) model of sec + nsec/1e9: order preserved for all 32-bit stamps, error at most 239 ns, stamps at least 500 ns apart stay distinct. Injectivity at nanosecond resolution is false: C44_distinct_refuted gives present-day stamps 100 ns apart that collide."
  },
  {
   "property": "C45",
   "status": "partial",
   "theorems": [
    "C45_world_and_body_accessors_partial",
    "C45_body_velocity_refuted",
    "C45_set_get_roundtrip"
   ],
   "note": "World accessors, rotation and matrix accessors proved; get_body_velocity/get_body_position have the opposite sign of the inverse matrix's columns (robot_state.cpp:238-259), refuted."
  },
  {
   "property": "C46",
   "status": "partial",
   "theorems": [
    "C46_published_ids_partial",
    "C46_published_ids_refuted",
    "C46_copy_shares_ids_refuted"
   ],
   "note": "Proved for estimator histories with no leg lifted in between, and always for the numeric part (C46_published_ids_partial). False in general for the column ids: copies share the shared_ptr<int> ids and del_aug_state decrements through them (C46_*_refuted)."
  },
  {
   "property": "C47",
   "status": "partial",
   "theorems": [
    "C47_left_update_partial",
    "C47_left_update_refuted"
   ],
   "note": "False of the code: inekf.cpp:125 tests LeftInvariant where RightInvariant is needed; exact behaviour proved, claim refuted."
  },
  {
   "property": "C48",
   "status": "partial",
   "theorems": [
    "C48_add_aug_bias_partial",
    "C48_del_first_aug_bias_partial",
    "C48_aug_bias_refuted"
   ],
   "note": "add_aug_bias proved; del_aug_bias uses start = idx-5+6 and get_aug_bias ignores its index, so only the first/last are right; refuted in general."
  },
  {
   "property": "C49",
   "status": "proved",
   "theorems": [
    "C49_conservation"
   ],
   "note": ""
  },
  {
   "property": "C50",
   "status": "partial",
   "theorems": [
    "C50_flag_always_zero",
    "C50_slip_flag_partial",
    "C50_covariance_ignored_refuted",
    "C50_detection_is_off"
   ],
   "note": "False of the code: the test uses a fixed 0.001*I instead of the computed Sigma and the last column of the state instead of a velocity difference (inekf_estimator.cpp:336-364); the exact behaviour is proved, and that the estimator never runs it."
  },
  {
   "property": "C51",
   "status": "proved",
   "theorems": [
    "C51_copy_diag"
   ],
   "note": ""
  },
  {
   "property": "C52",
   "status": "proved",
   "theorems": [
    "C52_right_update_is_textbook"
   ],
   "note": ""
  },
  {
   "property": "C53",
   "status": "partial",
   "theorems": [
    "C53_transition_matrix_partial",
    "C53_right_transition_is_conjugate",
    "C53_slow_rotation_refuted"
   ],
   "note": "Proved for rates of at least 1e-6 rad/s; below that Phi25L/Phi35L use integer divisions 1/2, 1/6 = 0 (imu_propagation.cpp:266-312), refuted."
  },
  {
   "property": "C54",
   "status": "proved",
   "theorems": [
    "C54_convention_independent_propagation"
   ],
   "note": ""
  },
  {
   "property": "C55",
   "status": "proved",
   "theorems": [
    "C55_velocity_innovation",
    "C55_foot_innovation",
    "C55_velocity_correction",
    "C55_leg_correction"
   ],
   "note": ""
  },
  {
   "property": "C56",
   "status": "partial",
   "theorems": [
    "C56_initial_velocity_partial",
    "C56_initial_velocity_refuted"
   ],
   "note": "Proved when the velocity sensor frame is the body frame and the scale is 1 (the default configuration). False in general: VelocityCorrection::initialize applies neither R_vel2body_ nor velocity_scale_ (velocity_correction.cpp:148-172). Refuted."
  },
  {
   "property": "C57",
   "status": "partial",
   "theorems": [
    "C57_convention_independent_filter_partial",
    "C57_convention_independent_filter_refuted"
   ],
   "note": "Proved for every configuration and legal history whose initialisations have zero velocity (propagation, velocity and leg corrections, contacts appearing and disappearing, clear, logging). False with a non-zero initial velocity: InitState writes the same diagonal covariance in both conventions (inekf_estimator.cpp:264-272); refuted."
  },
  {
   "property": "C58",
   "status": "proved",
   "theorems": [
    "C58_orientation_quaternion"
   ],
   "note": ""
  },
  {
   "property": "C59",
   "status": "partial",
   "theorems": [
    "C59_single_imu_silent_refuted",
    "C59_encoder_silent_refuted",
    "C59_first_of_many_ignored_refuted",
    "C59_encoder_calibration_refuted",
    "C59_buffer_constructor_refuted",
    "C59_imu_plus_encoder_partial"
   ],
   "note": "False of the code: five arrangements proved silent or undefined, one working arrangement proved."
  },
  {
   "property": "C60",
   "status": "partial",
   "theorems": [
    "C60_clear_between_partial",
    "C60_clear_race_refuted",
    "C60_clear_null_refuted"
   ],
   "note": "Proved between iterations; refuted during one (pop of an emptied queue) and without an encoder buffer (null dereference)."
  },
  {
   "property": "C61",
   "status": "proved",
   "theorems": [
    "C61_dead_reckoning"
   ],
   "note": ""
  },
  {
   "property": "C62",
   "status": "partial",
   "theorems": [
    "C62_idle_iterations_partial",
    "C62_idle_iterations_refuted"
   ],
   "note": "Proved with gyro propagation; false without it: RandomWalkPropagate adds Q in every loop iteration (imu_ang_vel_ekf.cpp:770-776)."
  },
  {
   "property": "C63",
   "status": "proved",
   "theorems": [
    "C63_calibration_mean",
    "C63_empty_window"
   ],
   "note": "Includes the behaviour of a zero window (division by zero)."
  },
  {
   "property": "C64",
   "status": "partial",
   "theorems": [
    "C64_flat_off_keeps_roll_pitch",
    "C64_flat_off_zero_roll_pitch",
    "C64_flat_on_refuted"
   ],
   "note": "flat_ground=false behaves as described; flat_ground=true estimates roll and pitch instead of zeroing them (imu_ang_vel_ekf.cpp:140-153), refuted."
  },
  {
   "property": "C65",
   "status": "partial",
   "theorems": [
    "C65_velocity_from_odometry",
    "C65_equal_stamps_divide_by_zero"
   ],
   "note": "Exact for constant twist; Eigen's matrix log is modelled by the closed-form principal logarithm; equal stamps divide by zero."
  },
  {
   "property": "C66",
   "status": "partial",
   "theorems": [
    "C66_same_mounting_partial",
    "C66_two_sources_refuted"
   ],
   "note": "Proved when all added sources share one mounting (C66_same_mounting_partial). False in general: the mounting is shared, the last source added wins (refuted)."
  },
  {
   "property": "C67",
   "status": "proved",
   "theorems": [
    "C67_imu_message",
    "C67_fetch_imu_message"
   ],
   "note": ""
  },
  {
   "property": "C68",
   "status": "partial",
   "theorems": [
    "C68_leg_message",
    "C68_short_leg_message_refuted"
   ],
   "note": "Proved for long enough messages; shorter ones are read out of range (refuted)."
  },
  {
   "property": "C69",
   "status": "partial",
   "theorems": [
    "C69_no_failure_when_uninterrupted",
    "C69_clear_race_refuted"
   ],
   "note": "Proved for uninterrupted passes; refuted for a clear between the emptiness test and the pop."
  },
  {
   "property": "C70",
   "status": "partial",
   "theorems": [
    "C70_heading_partial",
    "C70_heading_refuted"
   ],
   "note": "Proved for every configuration that takes its orientation from the IMU and whose calibration (if any) sees a mounting about the vertical, both conventions, all corrections, every legal history. False with static calibration and a tilted mounting: InitImuBias multiplies the orientation by the mounting rotation on the wrong side (Rib*R(q)), so the accelerometer bias depends on the heading; refuted."
  },
  {
   "property": "C71",
   "status": "proved",
   "theorems": [
    "C71_orientation_ignored"
   ],
   "note": "Every history, legal or not, both conventions; failures included."
  },
  {
   "property": "C72",
   "status": "proved",
   "theorems": [
    "C72_shipped_programs_are_safe",
    "C72_shipped_programs_follow_the_protocol"
   ],
   "note": ""
  },
  {
   "property": "C73",
   "status": "proved",
   "theorems": [
    "C73_one_state_per_sample",
    "C73_iteration"
   ],
   "note": ""
  },
  {
   "property": "C74",
   "status": "partial",
   "theorems": [
    "C74_filter_programs_are_safe",
    "C74_husky_gyro_filter_refuted"
   ],
   "note": "Proved for the three programs built from the configuration file constructor (gyro+encoder, gyro+IMU with and without calibration). Refuted for husky_gyro_filter, whose filter object is built with the other constructor and reads its uninitialised calibration length in its first iteration. The shared buffer of filtered samples is modelled as handed over at the end of each filter iteration."
  },
  {
   "property": "C75",
   "status": "partial",
   "theorems": [
    "C75_what_the_estimator_sees",
    "C75_encoder_readings_pass",
    "C75_two_imus_blocked_refuted",
    "C75_out_of_order_refuted"
   ],
   "note": "Order, stamps and content proved for the three working programs; progress proved for gyro+encoder. Refuted: with two IMUs a lag of more than the threshold stops the program for ever; with IMU+encoder (husky_gyro_filter) the estimator can get samples out of order."
  },
  {
   "property": "C76",
   "status": "proved",
   "theorems": [
    "C76_never_learns_the_unobservable",
    "C76_position_floor",
    "C76_heading_floor",
    "C76_direction_is_moving_the_world"
   ],
   "note": "The invariance theorem covers both conventions and every direction (w,a); the heading floor in terms of the configured value is stated for the right-invariant convention (in the left-invariant one the initial covariance itself ties heading to the initial velocity, so the value to start from is a different one; the invariance theorem still applies from there)."
  },
  {
   "property": "C77",
   "status": "proved",
   "theorems": [
    "C77_velocity_as_certain_as_the_reading",
    "C77_feet_as_certain_as_the_measurement"
   ],
   "note": "Stated about one call on any reachable correction object; at most the readings' own covariance in world axes."
  },
  {
   "property": "C78",
   "status": "proved",
   "theorems": [
    "C78_perfect_sensors_exact_trajectory",
    "C78_steady_motion",
    "C78_drives_a_circle",
    "C78_stands_still"
   ],
   "note": "Between two samples the true rate and specific force are constant and the turn is zero or above the code's small-angle threshold TOLERANCE (below it exp_so3 rounds to the identity). The biases assumed true are the ones the estimator starts with."
  },
  {
   "property": "C79",
   "status": "proved",
   "theorems": [
    "C79_clock_origin",
    "C79_log_depends_on_origin"
   ],
   "note": "The pose log is not part of the claim: its rate limiter starts from time 0 (last_pub_t_), so which lines are written near time 0 does depend on the origin (C31 states exactly which; C79_log_depends_on_origin exhibits it)."
  },
  {
   "property": "C80",
   "status": "proved",
   "theorems": [
    "C80_interleaving_irrelevant",
    "C80_readers_irrelevant",
    "C80_not_starved",
    "C80_before_or_during"
   ],
   "note": "Granularity: one critical section of a thread = one step; data races on unlocked reads are outside the model."
  },
  {
   "property": "C81",
   "status": "proved",
   "theorems": [
    "C81_node_is_safe_and_publishes",
    "C81_progress",
    "C81_pose_pass",
    "C81_path",
    "C81_shipped_nodes"
   ],
   "note": "Granularity of C80. Readings arriving during an iteration are given in converted form. The velocity an odometry message stands for is C65's; programs with a gyro filter are C74/C75."
  },
  {
   "property": "C82",
   "status": "proved",
   "theorems": [
    "C82_parked_estimator",
    "C82_parked_node",
    "C82_shipped_wheeled"
   ],
   "note": "Readings constant in time; the IMU's own orientation must not be used (true of all shipped programs) and the lever arm must not lie across the turn-rate bias (see C43). For legs the velocity computed from the raw rate must be zero (finding: InitState uses the raw rate)."
  },
  {
   "property": "C83",
   "status": "proved",
   "theorems": [
    "C83_iteration",
    "C83_initial_biases"
   ],
   "note": "Mean: exact for rates that are zero or not below the code's 1e-10 tolerance (C16, C20). The transition matrix Phi is the one C19 and C53 characterise. Biases: without a clear() in between (C30: the calibration survives a clear)."
  },
  {
   "property": "C84",
   "status": "proved",
   "theorems": [
    "C84_iteration",
    "C84_start"
   ],
   "note": "Configuration constructor (the one the shipped programs use). Iterations not hit by another thread's clear(); the covariance claims of C37 cover that case too. The initial mean needs a history without clear() when calibration is on."
  },
  {
   "property": "C85",
   "status": "partial",
   "theorems": [
    "C85_mean_accessors",
    "C85_bias_accessors",
    "C85_covariance_setters",
    "C85_plain_members",
    "C85_constructors",
    "C85_sek3_constructor_refuted",
    "C85_sek3_biases_refuted",
    "C85_covariance_getters_partial",
    "C85_bias_covariance_getter_refuted",
    "C85_add_aug_cov_partial",
    "C85_add_aug_cov_refuted",
    "C85_sek3_accessors",
    "C85_sek3_constructors"
   ],
   "note": "Setters, getters of mean and biases, constructors from matrices and SEK3 proved. False of the code: RobotState(SEK3&) copies (R, p, v) into (R, v, p) and makes three biases per vector column (robot_state.cpp:56-64); the bias covariance getters and setters use fixed rows 9 and 12 (robot_state.cpp:117-122, 315-320), which belong to landmarks once there are any; add_aug_cov appends behind the biases (325-329) where get_aug_cov does not look. Exact behaviour proved, claims refuted."
  },
  {
   "property": "C86",
   "status": "proved",
   "theorems": [
    "C86_corrections_monotone",
    "C86_propagation_monotone",
    "C86_smaller_std_quieter"
   ],
   "note": "Corrections in right-invariant coordinates, error convention of the state arbitrary. Propagation and correction do not chain for two runs with different residuals: the discretised noise depends on the mean."
  },
  {
   "property": "C87",
   "status": "proved",
   "theorems": [
    "C87_noise_unit"
   ],
   "note": "Bias estimation off (all shipped configurations). The covariance entries of the biases (reset to 0.0001 by each correction) are not compared; with bias estimation on these hard-coded resets feed back into the estimate."
  },
  {
   "property": "C88",
   "status": "proved",
   "theorems": [
    "C88_mirror_is_a_reflection",
    "C88_mirror_image",
    "C88_symmetric_robot",
    "C88_straight_ahead"
   ],
   "note": "Whole configurations, legs included (at most one leg correction, as everywhere). Leg identifiers are labels: a leg and its mirror image carry the same one, so an implementation that ties behaviour to the left-right numbering of a particular robot's legs is outside the statement."
  }
 ]
}