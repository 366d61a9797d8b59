# DRIFT in Rocq: design of the formal model

Subject: UMich-CURLY/drift (C++), pinned copy in /repo, read as text only.
Prover: Coq 8.16.1, sources in `rocq/theories` (logical name `Verif`).

## 1. What is modelled and how

* **Scalars.** `double` is modelled by Coq's real numbers `R`. Rounding, NaN,
  infinities and signed zeros are therefore outside the model, except where a
  theorem is explicitly about them (`Stamp.v`: binary64 time stamps, with
  Flocq). Because `x/0 = 0`-style totalisation would hide NaN, every division
  or inversion whose operand the code does not guard is a *checked* operation
  of the model and yields a distinct failure outcome (`DivZero`,
  `SingularInverse`).
* **Undefined behaviour and aborts** are outcomes: `res A := Ok a | Fail e`
  (`Res.v`), with `e` one of EigenAssert (index / size mismatch),
  NullDeref, EmptyQueue, IntOverflow, AssertFail, Throw, DivZero,
  SingularInverse, BadRead (uninitialised value). Dynamic Eigen matrices are
  `mat` (rows, columns, entries); all products, sums, `block`, `conservativeResize`
  etc. are range checked like Eigen's assertions.
* **Fixed-size matrices** (`Vector3d`, `Matrix3d`) are records of reals `V3`,
  `M3` (`Vec3.v`): no run-time check exists or is needed for them.
* **Eigen's `inverse()`** is a concrete total Gauss elimination with pivot
  search (`MatInv.v`) that returns `None` on singular input; it is proved to
  be a two-sided inverse and to succeed on every matrix with trivial kernel.
* **Pointers.** `std::shared_ptr<int>` landmark ids are addresses in an
  explicit heap; copies of a `RobotState` share addresses as in C++.
* **Threads.** Producers (subscriber threads) only append to a queue under its
  mutex; the consumer takes the mutex for each critical section. A call of a
  consumer function is therefore modelled with an explicit schedule: the list
  of batches that arrive before each of its critical sections. A theorem
  quantified over all schedules is quantified over all interleavings at lock
  granularity. Data races on unlocked accesses are recorded, not exhibited.
* **Histories.** The estimator is a transition system over API calls; theorems
  are inductions over arbitrary finite call sequences.

## 2. Files

Model (every definition cites file and lines of /repo), specification, lemmas and property theorems are kept apart.

| kind | files | contents |
|---|---|---|
| basis | Res, Vec3, Mat, MatInv, Psd, Blk, PsdBlk | outcome monad, 3-vectors, range-checked dynamic matrices, inverse, (semi)definiteness, block matrices |
| model | LieGroup, SEK3 | src/math |
| model | RobotState | src/state/robot_state.cpp (incl. the shared_ptr<int> heap) |
| model | Inekf | src/filter/inekf/inekf.cpp |
| model | Imu, Quat, Propagation | IMU measurement, Eigen quaternions, imu_propagation.cpp, base_propagation.cpp |
| model | Queue, VelCorr, LegCorr | mutex-protected queues with arrival schedules, both corrections |
| model | Estimator | src/estimator/inekf_estimator.cpp as a transition system over API calls |
| model | ImuFilter | src/imu_filter/imu_ang_vel_ekf.cpp |
| model | KinGen, Kinematics | generated mini-cheetah functions (KinGen.v is produced from the C++ text by tools/gen_kin.py), legged_kinematics.cpp, mini_cheetah_kinematics.cpp |
| model | WheelOdom, Ros, Stamp, Driver, System, Node | ROS baselines, subscriber callbacks and publisher, time stamps (binary64), shipped main programs, programs with a gyro filter thread, complete nodes |
| specification | Spec, SpecState, SpecFilter, SpecProp, SpecCorr, SpecEst, SpecFiles, SpecGyro, SpecKin, SpecOdom, SpecRos, SpecStamp, SpecConv, SpecClear, SpecYaw, SpecSnap, SpecDriver, SpecSystem, SpecObs, SpecTrack, SpecSched, SpecTime, SpecNode, SpecPark, SpecStep, SpecGyroStep, SpecAcc, SpecMono, SpecScale, SpecMirror | vocabulary of the theorem statements |
| lemmas | all other files (LieSO3 ... YawRun, OriRun, Snap, Obs*, Track* ...) | no model definitions |
| theorems | Prop*.v | only `Theorem Cnn_...` (proved by `exact lemma`), `Print Assumptions` and the non-vacuity `Example`s |

## 3. Properties: what is modelled, how it is proved

The statements are in properties.jsonl, the theorem names in MANIFEST.json.  A theorem with suffix
`_partial` proves part of its property; one with suffix `_refuted` proves that the full English
claim is false of the code (the witness is a concrete program state or legal history).

| id | model | method |
|---|---|---|
| C01 | skew, Gamma_SO3, Exp_SO3, Jacobians | 3x3 algebra with sin^2+cos^2=1, A^3=-theta^2 A |
| C02 | Gamma_SO3, factorial | recurrence Gamma_m = I/m! + A Gamma_{m+1}; convergence of the series to the sin/cos closed form |
| C03 | Exp_SEK3 | column-wise block algebra; series |
| C04 | Adjoint_SEK3 | block algebra |
| C05 | get_Xinv, SEK3::inverse | block algebra; SEK3::inverse violates it for more than two columns (refuted) |
| C06-C08 | add_aug_state, del_aug_state, RemoveRowAndColumn | invariant by induction over operation lists |
| C09 | add_aug_state, del_aug_noise_cov | exact behaviour over all histories; claim refuted (index uses dim X) |
| C10-C15 | CorrectRight/LeftInvariant, RemoveBias | matrix algebra, Schur complement, Joseph form |
| C16, C17 | Propagate, StateTransitionMatrix, DiscreteNoiseMatrix | group algebra; congruence preserves PSD |
| C18 | Propagate | derivative of the strapdown solution (Coquelicot) and uniqueness of its ODE; semigroup law |
| C19 | Propagate | log-linearity: Exp of the error, closed form |
| C20 | Propagate + queue | induction over streams and schedules |
| C21, C22 | VelocityCorrection::Correct | induction over queue; C22 refuted |
| C23-C25 | LeggedKinematicsCorrection::Correct | induction over legs and histories; C25 refuted on the future side |
| C26 | whole estimator | safety invariant `est_ok` by induction over all call histories and schedules |
| C27, C28 | RunOnce, InitState | invariant, exact specification of each call |
| C29 | RunOnce | monotone propagated time; published time refuted |
| C30 | clear | simulation between the cleared and a fresh estimator up to heap renaming; calibration refuted |
| C31, C32 | PoseLoggingThread, clear (log names) | induction over streams, string reasoning |
| C33-C35 | generated kinematics, get_init_velocity | derivatives with Coquelicot, trigonometric ring identities |
| C36 | set_quaternion, toRotationMatrix | polynomial algebra |
| C37, C38 | ImuAngVelEKF | 3x3/6x6 PSD, queue induction |
| C39 | WheelOdometry | algebra, telescoping, comparison with the ODE solution |
| C40, C41 | encoder callbacks, publisher | decision logic, induction over publisher passes |
| C42, C43 | InitImuBias, Propagate | induction over streams; drift closed form |
| C44 | stamp conversion | Flocq: rounding is monotone, error bound |
| C45, C48, C51 | RobotState accessors | algebra / refutation |
| C46 | ids shared by copies | heap invariant over all later histories; refuted when a foot is lifted |
| C47 | CorrectLeftInvariant | exact behaviour; refuted for RightInvariant states |
| C49 | queues with schedules | conservation by induction over interleavings |
| C50 | SlipEstimatorStep | algebra; never run by any history |
| C52 | CorrectRightInvariant | equals the textbook update |
| C53 | StateTransitionMatrix | derivative of each block (Coquelicot), uniqueness; refuted below 1e-6 rad/s |
| C54, C57 | propagation / whole filter in both conventions | simulation relation (adjoint-transformed covariance) over all histories |
| C55 | innovations | group algebra |
| C56 | VelocityCorrection::initialize | algebra; refuted for general mounting |
| C58 | rotation-to-quaternion | four-branch case analysis |
| C59-C64 | ImuAngVelEKF set-ups, clear, flat ground, calibration | induction over iterations of its thread |
| C65, C66 | odometry callback | matrix logarithm of constant twists; shared extrinsic refuted |
| C67, C68 | IMU and leg callbacks | field-by-field conversion, kinematics totality |
| C69 | publisher against clear | interleaving model at lock granularity |
| C70 | heading equivariance | simulation relation between rotated runs (whole estimator) |
| C71 | orientation ignored | non-interference simulation |
| C72 | shipped main programs | safety lifted from the estimator state machine to event sequences of each main program |
| C73 | every sample accepted by a fed main loop | counting invariant over loop iterations |
| C74 | gyro-filter programs composed with the estimator | safety of the composed transition system; refuted for the husky gyro filter |
| C75 | what the estimator sees through the gyro filter | stream invariant (subsequence, order); refuted for two IMUs and for reordering |
| C76 | unobservable directions (world shift, heading) | invariant: the variance floor along the transported direction survives Phi, Kalman updates, augmentation and marginalisation |
| C77 | posterior no larger than the reading's covariance | Kalman information inequality H P+ H^T <= N for H with a right inverse, both conventions |
| C78 | with perfect sensors every estimate is exactly on the true trajectory | invariant over est_step: pose on T, biases fixed, foot positions true; strapdown ODE uniqueness for propagation, zero innovation for corrections |
| C79 | moving all time stamps by d moves the published stamps by d and changes nothing else | homomorphism: every function of the filter commutes with the shift (TimeShift); simulation over histories |
| C80 | the interleaving across shared resources is irrelevant; readers never disturb the filter | commutation of every independent pair of operations, trace equivalence from equal projections; simulation erasing the readers' variables |
| C81 | complete ROS nodes: messages in, pose messages out, any interleaving of five threads | forward simulation of node histories by estimator histories (callbacks push exactly what C40/C65-C68 say, publisher passes are pops), C26/C41/C73 composed through an invariant over the node |
| C82 | a parked robot: constant IMU readings, no measured motion, any order of calls / threads | invariant of the calibration (all averaged samples equal), start of the filter, then C78's steady-motion theorem with the constant trajectory; lifted to nodes through C81 |
| C83 | RunOnce and InitState of the estimator, all parameters of the configuration | invariant over histories: the noise matrix Qc of the state is the one the configuration asks for (depends on contacts created and removed), the objects carry the configured parameters, the previous sample is the one in turn; then C16-C19, C21, C24 for one step |
| C84 | the gyro filter, all parameters, all correction methods | invariant over histories: the parameters are the configured ones, the previous gyro rate and the propagation time are those of the gyro stream; then one lemma per correction |
| C85 | all constructors, getters and setters of RobotState and SEK3 | block algebra (put/get on matrices); covariance getters by C07's refinement to the abstract store, over all histories |
| C86 | Loewner order between two filters | Kalman update = optimal gain (C12), so J(P,N,G_P) <= J(P,N,G_Q) <= J(Q,M,G_Q); congruence and masks are monotone; induction over corrections / samples |
| C87 | estimator with all standard deviations times k | covariance blocks without biases scale by k^2: congruence, gain (P H^T (H P H^T + N)^-1 is homogeneous), masks and the removal/addition of contacts; relation on estimator states, induction over histories |
| C88 | estimator of the mirrored robot, legs included; a symmetric robot is estimated on the mirror, one driving straight ahead never sideways | the mirror acts on the state matrix, biases, covariance and noise by diagonal sign matrices; adjoint, exponential, transition and noise matrices, gain, inverse and masks commute with them; two pseudovector signs for orientation errors and gyroscope; contact columns are added and removed with the signs of their coordinate (the misaligned noise copy of Propagate only moves zero rows); relation on estimator states, induction over histories |

## 4. Trusted base

1. Coq 8.16.1's kernel (`coqc`; `coqchk` agrees).
2. The axioms listed by `Print Assumptions` (5), all from the standard library: the constructive-real
   axioms `ClassicalDedekindReals.sig_forall_dec` and `sig_not_dec`,
   `FunctionalExtensionality.functional_extensionality_dep`, and, through Coquelicot and Flocq,
   `Classical_Prop.classic`.  No axiom of this development, no functor, no module type, no section-less variable.
3. The reading of the C++ text recorded in the comments of the model files, and tools/gen_kin.py
   (a textual translator of the generated kinematics functions; KinEq.v and KinThms.v prove its output equal
   to the hand-written leg chain, which independently checks it).

### What is modelled

src/math, src/state, src/filter, src/estimator, src/imu_filter, src/measurement, src/kinematics, the ROS
subscriber callbacks and publisher threads, the wheel-odometry baselines, the main loops of ROS/drift/examples.

### What is not modelled

* Rounding, NaN, infinity and overflow of `double` arithmetic (except the time stamps of C44).
* `std::cout` output, `sleep`/`ros::Rate` timing (a delay is an arbitrary schedule), YAML parsing (a configuration is a
  record of optional values; file-not-found and wrong types throw before any object exists).
* The text written to the log files (the sequence of poses and the file each goes to are modelled), file-system errors.
* ROS transport, node handles, topic naming; a callback is a function of the delivered message.
* Unsynchronised accesses as C++ data races: their lock-granularity interleavings are modelled where a property depends on
  them (C49, C60, C69), the undefined behaviour of the race itself is listed as a finding.
* Exceptions of the allocator, thread creation; destructors' joins.

### Simplifications (each also in the comment of its definition)

* `state_type` is always WorldCentric (no code path sets another one).
* Covariances are passed as values; Eigen aliasing (`X = f(X)`) is read as evaluation before assignment, as Eigen does for products.
* An IMU message pushed during a consumer call is equivalent to one pushed directly after it (each call looks at that queue once);
  the velocity and leg queues, looked at several times per call, have explicit schedules.
* Eigen's `log()` of a matrix is the principal logarithm.
* `Eigen::JacobiSVD`/`ldlt` do not occur; `inverse()` is Gauss elimination with pivot search, exact.
* A leg measurement is abstracted in LegCorr.v by its getters after ComputeKinematics; Kinematics.v and C68 connect the two.
* At most one legged-kinematics correction is assumed in C26 (two of them would share the state's contact columns).

## 5. Assumptions reported per theorem

(Generated by tools/assumptions.py from the compiled files.)

* **none (closed under the global context)** (2):
  C32_extension_removed, C32_no_extension.
* **`sig_forall_dec`** (18):
  C85_mean_accessors, C85_bias_accessors, C85_covariance_setters, C85_plain_members, C85_constructors, C85_sek3_constructor_refuted, C85_sek3_biases_refuted, C85_add_aug_cov_partial, C85_sek3_accessors, C85_sek3_constructors, C30_cleared_state, C59_buffer_constructor_refuted, C60_clear_null_refuted, C33_object_shapes, C69_clear_race_refuted, C48_add_aug_bias_partial, C48_del_first_aug_bias_partial, C74_husky_gyro_filter_refuted.
* **`functional_extensionality_dep`, `sig_forall_dec`** (70):
  C85_covariance_getters_partial, C85_bias_covariance_getter_refuted, C85_add_aug_cov_refuted, C32_mini_cheetah_refuted, C32_log_files_refuted, C50_slip_flag_partial, C50_covariance_ignored_refuted, C56_initial_velocity_partial, C56_initial_velocity_refuted, C37_covariance_psd, C37_correction_is_kalman_and_decreases, C38_one_iteration_partial, C38_history_partial, C38_no_blocking_with_encoder_partial, C38_stale_blocks_refuted, C38_duplicate_output_refuted, C59_single_imu_silent_refuted, C59_encoder_silent_refuted, C59_first_of_many_ignored_refuted, C59_encoder_calibration_refuted, C59_imu_plus_encoder_partial, C60_clear_between_partial, C60_clear_race_refuted, C61_dead_reckoning, C62_idle_iterations_partial, C62_idle_iterations_refuted, C63_calibration_mean, C63_empty_window, C64_flat_off_keeps_roll_pitch, C64_flat_off_zero_roll_pitch, C64_flat_on_refuted, C84_iteration, C84_start, C17_constructed_noise_is_ok, C36_quaternion_accepted_iff_near_unit, C36_unit_quaternion_is_rotation, C36_accepted_quaternion_is_nearly_rotation, C36_history, C42_bias_is_mean_of_window, C42_priors_without_calibration, C42_empty_window_divides_by_zero, C42_negative_window_never_ends, C01_skew_is_cross, C04_adjoint, C86_smaller_std_quieter, C81_shipped_nodes, C82_shipped_wheeled, C40_four_wheels, C40_fetch, C40_fetch_rejects_short, C40_rejects_short_refuted, C40_zero_track_width, C40_stamp_in_seconds, C68_short_leg_message_refuted, C05_state_inverse, C05_SEK3_group, C05_SEK3_inverse_refuted, C06_dimensions, C07_ids_designate_their_landmark, C08_delete_marginalises, C08_add_then_delete, C09_only_newest_contact_has_noise_partial, C09_contact_noise_refuted, C45_world_and_body_accessors_partial, C45_body_velocity_refuted, C45_set_get_roundtrip, C46_copy_shares_ids_refuted, C48_aug_bias_refuted, C51_copy_diag, C88_mirror_is_a_reflection.
* **`functional_extensionality_dep`, `sig_forall_dec`, `sig_not_dec`** (123):
  C30_clear_forgets_partial, C30_clear_after_calibration, C30_calibration_survives_refuted, C30_log_clock_survives_refuted, C50_flag_always_zero, C57_convention_independent_filter_partial, C57_convention_independent_filter_refuted, C21_velocity_samples_in_order_once, C21_fresh_sample_is_applied, C21_velocity_correction_total, C22_future_sample_not_used_partial, C22_future_sample_used_refuted, C23_tracked_legs_are_the_contacts, C23_leg_correction_total, C24_touchdown, C24_remeasure, C25_stale_not_used_partial, C25_future_used_refuted, C55_velocity_innovation, C55_foot_innovation, C55_velocity_correction, C55_leg_correction, C72_shipped_programs_are_safe, C72_shipped_programs_follow_the_protocol, C73_one_state_per_sample, C73_iteration, C26_no_undefined_behaviour, C26_no_failure_when_fed, C27_run_once_publishes, C28_init_state, C29_published_times_partial, C29_published_times_refuted, C31_log_keeps_rate, C32_log_files_partial, C32_exact_condition, C32_shipped_programs_partial, C49_conservation, C50_detection_is_off, C58_orientation_quaternion, C16_propagation_stays_on_group, C17_propagation_keeps_covariance, C17_backward_step_breaks_it, C18_no_discretisation_error, C19_loglinear_error, C20_each_sample_once, C20_uninitialised_dereferences_null, C43_drift_of_a_robot_at_rest, C43_stationary_robot_partial, C43_stationary_robot_refuted, C53_right_transition_is_conjugate, C54_convention_independent_propagation, C10_corrections_stay_on_group, C11_corrections_keep_covariance, C12_correction_never_increases_uncertainty, C12_gain_is_optimal, C52_right_update_is_textbook, C13_convention_independent, C14_disabled_biases_are_frozen, C14_yaw_bias_never_changes, C15_zero_innovation, C47_left_update_partial, C47_left_update_refuted, C33_jacobian_is_derivative, C33_jacobian_entries, C33_positions_are_the_leg_chains, C33_compute_kinematics, C33_leg_measurement, C34_transforms_and_twists, C35_stance_foot_is_still, C35_no_contact, C35_default_object_fails, C01_exp_is_rotation, C01_jacobians, C02_gamma_is_series, C02_gamma_small_angle, C02_gamma_rejects, C03_exp_sek3_group, C03_exp_sek3_is_matrix_exponential, C88_mirror_image, C88_symmetric_robot, C88_straight_ahead, C86_corrections_monotone, C86_propagation_monotone, C76_never_learns_the_unobservable, C76_position_floor, C76_heading_floor, C77_velocity_as_certain_as_the_reading, C77_feet_as_certain_as_the_measurement, C39_dead_reckoning, C39_one_pair_per_call, C39_log, C39_matrix_in_group_refuted, C39_turning_position_refuted, C39_zero_stamp_refuted, C41_every_state_published_once, C41_pose_pass, C41_path_is_every_kth_pose, C41_estimator_states_are_publishable, C41_covariance_sent, C41_pose_covariance_refuted, C41_fast_path_refuted, C67_imu_message, C67_fetch_imu_message, C68_leg_message, C69_no_failure_when_uninterrupted, C87_noise_unit, C80_interleaving_irrelevant, C80_readers_irrelevant, C80_not_starved, C80_before_or_during, C46_published_ids_partial, C46_published_ids_refuted, C83_initial_biases, C74_filter_programs_are_safe, C75_what_the_estimator_sees, C75_encoder_readings_pass, C75_two_imus_blocked_refuted, C75_out_of_order_refuted, C79_clock_origin, C70_heading_partial, C70_heading_refuted, C71_orientation_ignored, C79_log_depends_on_origin.
* **`classic`, `functional_extensionality_dep`, `sig_forall_dec`, `sig_not_dec`** (25):
  C18_exact_strapdown_integral, C18_strapdown_solution_exists, C53_transition_matrix_partial, C53_slow_rotation_refuted, C81_node_is_safe_and_publishes, C81_progress, C81_pose_pass, C81_path, C76_direction_is_moving_the_world, C39_exact_rotation_and_straight_motion, C82_parked_estimator, C82_parked_node, C65_velocity_from_odometry, C65_equal_stamps_divide_by_zero, C66_same_mounting_partial, C66_two_sources_refuted, C44_order_preserved, C44_error_bound, C44_distinct_partial, C44_distinct_refuted, C83_iteration, C78_perfect_sensors_exact_trajectory, C78_steady_motion, C78_drives_a_circle, C78_stands_still.

## 6. Findings (places where the code does not do what its user would expect)

Each is either a `_refuted` theorem (id given) or an observation recorded while modelling.

* SEK3::inverse keeps only the first five columns (C05). get_body_velocity/get_body_position have the opposite sign of the inverse matrix (C45).
* add_aug_state loses the process noise of the older contacts (C09).
* Copies of a RobotState share the column-id integers; lifting a foot changes the ids in states already published (C46).
* del_aug_bias / get_aug_bias use wrong indices except for the first / last one (C48).
* CorrectLeftInvariant tests the wrong convention (inekf.cpp:125) (C47).
* Phi25L / Phi35L use integer divisions that are 0 for slow rotation (C53).
* Calibration removes gravity and the centripetal term in a frame different from the one propagation uses (C43); the same mismatch breaks heading independence for tilted mountings (C70).
* Negative time steps break the covariance's definiteness (C17).
* A calibration window of 0, the default, divides by zero; a negative one never ends (C42).
* The velocity correction can apply a sample from the future after discarding a stale one (C22); the leg correction never skips future samples (C25).
* Published time goes back when a delayed velocity sample is accepted (C29).
* InitState while already enabled would write the bias covariance into contact slots; InitState spins for ever when a correction has no data (C26 excludes the former by the protocol and names the latter as its only failure).
* InitState writes the same diagonal covariance in both conventions, so the two conventions are not equivalent for a rotated start (C57).
* clear() keeps calibration, last_pub_t_, init_count_, the pending log state, the previous IMU sample, t_ and t_prop_ (C30).
* Log files: equal names and "./dir/name" paths collide (C32); InitState's own state is never logged; a state popped before clear may be written to the new file.
* The slip test ignores the covariance it computes, and no code path enables it (C50).
* VelocityCorrection::initialize ignores mounting and scale (C56).
* Gyro filter: a stale head blocks for ever and several IMUs yield duplicate outputs (C38); silent or undefined arrangements (C59); clear() races with its thread and may dereference null (C60); idle iterations add process noise (C62); flat_ground is inverted (C64).
* Wheel odometry: the matrix is built from Ones(5,5) (not a group element), a stamp of 0 is a sentinel, the position update is Euler when turning (C39).
* A default-constructed MiniCheetahKinematics with a contact asserts (C35).
* ROS: short JointState / contact messages are read out of range (C40, C68), zero track width divides by zero (C40), the published covariance is the (orientation, velocity) block (C41), a path rate above the pose rate computes % 0 (C41), path decimation is right for the first 2^31 poses only, the odometry extrinsic is shared by all sources (C66), equal odometry stamps divide by zero (C65), clear between the publisher's empty-test and its pop (C69); the first ROSPublisher constructor's bool parameter shadows the member enable_slip_publisher_ (left uninitialised); the bodies of SlipPublish are commented out.
* Time stamps closer than 500 ns may collide in double (C44).
* init_count_ is an int that is incremented for ever (overflow after 2^31 RunOnce calls); the logging thread and clear() access the log stream without a common lock.
* Translation equivariance is not exact below the exp TOLERANCE threshold (the code switches to a first-order term).
* set_initial_state stores the raw rate of the first IMU sample (IMU axes, bias included, imu_propagation.cpp:512) as the body rate and nothing updates it later; the initial velocity of a legged robot is computed from it, so a parked legged robot with a gyro bias starts with a non-zero velocity (C82 needs the hypothesis that it does not).
* RobotState(SEK3&) copies the matrix as it is, but SEK3 stores (R, p, v) and RobotState (R, v, p): position and velocity change places (C85_sek3_constructor_refuted); with landmark columns it makes three biases per vector column (C85_sek3_biases_refuted).
* get/set_gyroscope_bias_covariance and get/set_accelerometer_bias_covariance use rows 9 and 12 whatever the number of landmarks (C85_bias_covariance_getter_refuted); add_aug_cov appends behind the biases (C85_add_aug_cov_refuted).
* The shipped mini_cheetah configuration gives the pose log and the velocity log the same file name (C32_mini_cheetah_refuted).
* fetch_gyro_filter's yaml key `use_imu_ori_est_init_bias` is never read by any code; shipped mounting quaternions such as [0, 0.7071, -0.7071, 0] are not exactly unit.
* husky_double_imu_filter stalls for ever once its second IMU is more than 0.1 s ahead (C75_two_imus_blocked_refuted); husky_gyro_filter reads the uninitialised init_bias_size_ (C74_husky_gyro_filter_refuted) and out-of-order samples reach the estimator (C75_out_of_order_refuted).
