{
 "claims": [
  {
   "property": "C01",
   "status": "proved",
   "theorems": [
    "C01_pose_vector_and_matrix_agree",
    "C01_transformPoint_agrees"
   ],
   "note": ""
  },
  {
   "property": "C02",
   "status": "proved",
   "theorems": [
    "C02_rigid_iff",
    "C02_deviation_bounded",
    "C02_always_rigid_refuted"
   ],
   "note": "Exact characterisation: rigid iff the rotation vector is zero or its squared norm exceeds epsilon. Elsewhere the deviation is bounded by epsilon; C02_always_rigid_refuted shows the exception is real."
  },
  {
   "property": "C03",
   "status": "proved",
   "theorems": [
    "C03_round_trip_exact",
    "C03_round_trip_close",
    "C03_half_turn",
    "C03_vector_round_trip"
   ],
   "note": ""
  },
  {
   "property": "C04",
   "status": "proved",
   "theorems": [
    "C04_residual_2D3D",
    "C04_zero_iff_ideal_2D3D",
    "C04_residual_3D3D",
    "C04_zero_iff_ideal_3D3D",
    "C04_chain_as_stored"
   ],
   "note": ""
  },
  {
   "property": "C05",
   "status": "proved",
   "theorems": [
    "C05_rejects_iff_behind",
    "C05_accepts_visible",
    "C05_3D3D_never_rejects",
    "C05_3D3D_accepts",
    "C05_empty_problem"
   ],
   "note": ""
  },
  {
   "property": "C06",
   "status": "proved",
   "theorems": [
    "C06_result_2D3D",
    "C06_result_3D3D",
    "C06_unmoved_returns_guess_2D3D",
    "C06_unmoved_returns_guess_3D3D"
   ],
   "note": ""
  },
  {
   "property": "C07",
   "status": "partial",
   "theorems": [
    "C07_overloads_agree_refuted",
    "C07_overloads_agree_iff",
    "C07_overloads_agree_partial"
   ],
   "note": "The code violates the property behind the camera (misplaced parenthesis in the guard). Refuted with a witness, with an exact characterisation of where the overloads agree."
  },
  {
   "property": "C08",
   "status": "proved",
   "theorems": [
    "C08_pinhole",
    "C08_pinhole_array",
    "C08_ray_invariant",
    "C08_ray_injective"
   ],
   "note": ""
  },
  {
   "property": "C09",
   "status": "proved",
   "theorems": [
    "C09_linear_joint",
    "C09_revolute_joint",
    "C09_unknown_joint_type",
    "C09_dh_matrix_is_product",
    "C09_dh_matrix_rigid"
   ],
   "note": ""
  },
  {
   "property": "C10",
   "status": "proved",
   "theorems": [
    "C10_value",
    "C10_throws_iff",
    "C10_returns_iff",
    "C10_rigid",
    "C10_extend",
    "C10_extend_relative"
   ],
   "note": ""
  },
  {
   "property": "C11",
   "status": "proved",
   "theorems": [
    "C11_same_kinematics",
    "C11_further_offsets",
    "C11_same_shape",
    "C11_defined_iff"
   ],
   "note": ""
  },
  {
   "property": "C12",
   "status": "partial",
   "theorems": [
    "C12_keeps_names_and_limits_refuted",
    "C12_keeps_names_and_limits_partial",
    "C12_keeps_labels_partial"
   ],
   "note": "The offset constructor keeps types and geometry but resets joint names and limits: refuted with a witness, the rest proved."
  },
  {
   "property": "C13",
   "status": "proved",
   "theorems": [
    "C13_storage",
    "C13_mask_exact",
    "C13_mask_range",
    "C13_mask_nodup",
    "C13_labels"
   ],
   "note": ""
  },
  {
   "property": "C14",
   "status": "partial",
   "theorems": [
    "C14_listed_exactly_frozen",
    "C14_out_of_range_throws_partial",
    "C14_out_of_range_throws_refuted",
    "C14_negative_index_aborts"
   ],
   "note": "Negative mask entries wrap around and are accepted or abort; proved for non-negative entries, the exception refuted with witnesses."
  },
  {
   "property": "C15",
   "status": "proved",
   "theorems": [
    "C15_norm_preserved",
    "C15_zero_increment",
    "C15_additive_along_direction",
    "C15_reaches_everything",
    "C15_rotation"
   ],
   "note": ""
  },
  {
   "property": "C16",
   "status": "partial",
   "theorems": [
    "C16_throws_iff_not_square",
    "C16_offdiagonal_symmetric_bounded",
    "C16_entries_partial",
    "C16_diagonal_is_stdev_refuted",
    "C16_diagonal_of_tiny_variance"
   ],
   "note": "For a parameter other than the first with standard deviation below machine epsilon the diagonal reports 1: refuted; entries proved elsewhere, off-diagonal bounds proved for all."
  },
  {
   "property": "C17",
   "status": "proved",
   "theorems": [
    "C17_every_pair_once_with_its_names",
    "C17_pairs_unique",
    "C17_too_few_names"
   ],
   "note": ""
  },
  {
   "property": "C18",
   "status": "proved",
   "theorems": [
    "C18_inputs_ok_meaning",
    "C18_unmasked_parameters_reported",
    "C18_stdev_names",
    "C18_success_only_if",
    "C18_throws_on_count_mismatch",
    "C18_throws_on_label_mismatch",
    "C18_throws_on_solver_failure",
    "C18_generated_names",
    "C18_generated_names_distinct"
   ],
   "note": ""
  },
  {
   "property": "C19",
   "status": "proved",
   "theorems": [
    "C19_filter_exact_and_ordered"
   ],
   "note": ""
  },
  {
   "property": "C20",
   "status": "partial",
   "theorems": [
    "C20_slots_of_translation",
    "C20_slots_of_rotation",
    "C20_blocks_hold_slots",
    "C20_pnp_labels_partial",
    "C20_pnp_3D_labels_partial",
    "C20_hand_eye_labels_refuted",
    "C20_hand_eye_3D_labels_refuted",
    "C20_hand_eye_given_labels_partial",
    "C20_static_cameras_labels_refuted",
    "C20_intrinsic_labels_refuted"
   ],
   "note": "PnP reports are labelled right. In hand-eye (default labels), multi-static-camera and intrinsic calibration every pose report swaps the names of rotation and translation: refuted for all problems, with the exact labels reported."
  },
  {
   "property": "C21",
   "status": "partial",
   "theorems": [
    "C21_residual_value",
    "C21_zero_iff_mean",
    "C21_dimension_check_partial",
    "C21_dimension_check_refuted"
   ],
   "note": "Only the number of elements is compared, so a 2x3 mean with a 3x2 deviation is accepted and aborts on evaluation: refuted; rest proved."
  },
  {
   "property": "C22",
   "status": "proved",
   "theorems": [
    "C22_zero_exactly_on_the_circle",
    "C22_both_forms_agree",
    "C22_fit_minimises_these_residuals",
    "C22_radius_never_negative",
    "C22_unmoved_circle",
    "C22_fit_succeeds",
    "C22_no_observations"
   ],
   "note": ""
  },
  {
   "property": "C23",
   "status": "partial",
   "theorems": [
    "C23_grid_rejects",
    "C23_grid_returns_corners",
    "C23_grid_in_range",
    "C23_grid_distinct_partial",
    "C23_grid_distinct_refuted",
    "C23_random_accepts",
    "C23_random_in_range",
    "C23_random_may_repeat"
   ],
   "note": "Bounds, corner positions and the random sampler are proved. Pairwise distinct grid indices fail for single row or single column targets, which the sampler accepts (C23_grid_distinct_refuted); proved for at least two rows and columns (C23_grid_distinct_partial). The random sampler draws with replacement (C23_random_may_repeat)."
  },
  {
   "property": "C24",
   "status": "proved",
   "theorems": [
    "C24_perfect_observation",
    "C24_perfect_camera",
    "C24_perfect_sensor",
    "C24_sampled_have_zero_error",
    "C24_origin_must_be_seen",
    "C24_sensor_errors_scaled",
    "C24_too_few_throws",
    "C24_returns_one_error_each"
   ],
   "note": ""
  },
  {
   "property": "C25",
   "status": "proved",
   "theorems": [
    "C25_throws_iff_nearly_parallel",
    "C25_intersection"
   ],
   "note": ""
  },
  {
   "property": "C26",
   "status": "proved",
   "theorems": [
    "C26_back_projection_inverts_projection",
    "C26_back_projection",
    "C26_throws_iff_edge_on",
    "C26_error_is_distance",
    "C26_error_zero_iff",
    "C26_outcome",
    "C26_all_observations_in_order",
    "C26_perfect_observations"
   ],
   "note": ""
  },
  {
   "property": "C27",
   "status": "proved",
   "theorems": [
    "C27_result",
    "C27_succeeds",
    "C27_bad_first_fit_throws",
    "C27_bad_second_fit_throws",
    "C27_defined",
    "C27_too_few_aborts"
   ],
   "note": ""
  },
  {
   "property": "C28",
   "status": "partial",
   "theorems": [
    "C28_result",
    "C28_succeeds",
    "C28_sizes_differ_throws",
    "C28_defined_partial",
    "C28_every_set_refuted",
    "C28_too_few_correspondences_aborts"
   ],
   "note": "The statistics, the size check and the outcome are proved for non-empty sets. On an empty set the size check underflows and reads outside its input (C28_every_set_refuted)."
  },
  {
   "property": "C29",
   "status": "proved",
   "theorems": [
    "C29_matrix_ignores_signs",
    "C29_statistics_ignore_signs",
    "C29_matrix_ignores_order",
    "C29_statistics_ignore_order",
    "C29_mean_is_best",
    "C29_equal_rotations",
    "C29_orientation_deviation",
    "C29_uses_converged_solutions_2D",
    "C29_uses_converged_solutions_3D",
    "C29_succeeds_2D",
    "C29_succeeds_3D"
   ],
   "note": ""
  },
  {
   "property": "C30",
   "status": "proved",
   "theorems": [
    "C30_seen_error_is_pinhole",
    "C30_static_cost",
    "C30_free_camera_cost",
    "C30_fixed_camera_cost",
    "C30_wrist_only_cost",
    "C30_multi_camera_pnp_cost",
    "C30_static_problem",
    "C30_static_starts_at_the_guesses",
    "C30_static_succeeds",
    "C30_static_unused_camera_aborts",
    "C30_camera_only_problem",
    "C30_wrist_only_problem",
    "C30_wrist_only_starts_at_the_guesses",
    "C30_multi_camera_pnp_problem",
    "C30_multi_camera_pnp_starts_at_the_guess"
   ],
   "note": ""
  },
  {
   "property": "C31",
   "status": "partial",
   "theorems": [
    "C31_all_cameras_returned",
    "C31_relative_poses_refuted",
    "C31_relative_poses_kept_partial",
    "C31_relative_poses_nearly_kept_partial"
   ],
   "note": "Exact when the correction's rotation vector is zero or its squared norm exceeds epsilon; refuted with a tiny correction (the transform is then not orthogonal), and for every outcome bounded by epsilon."
  },
  {
   "property": "C32",
   "status": "partial",
   "theorems": [
    "C32_first_camera_fixed_refuted",
    "C32_without_images",
    "C32_first_camera_fixed_partial",
    "C32_always_returns",
    "C32_unmoved_returns_guesses_partial"
   ],
   "note": "Proved for at least one image; with no images the guesses are never loaded and every camera is returned at the base: refuted."
  },
  {
   "property": "C33",
   "status": "partial",
   "theorems": [
    "C33_residuals_of_located_images",
    "C33_failed_image_aborts",
    "C33_skips_failed_images_refuted",
    "C33_empty_image_aborts",
    "C33_no_images_aborts",
    "C33_result_uses_all_images_partial",
    "C33_succeeds_partial"
   ],
   "note": "Residuals use exactly the located images, but the covariance is requested for all poses, so one failed image aborts: refuted. Proved: a result exists iff all images are located (given the covariance), and what it then is."
  },
  {
   "property": "C34",
   "status": "proved",
   "theorems": [
    "C34_projection_is_brown_conrady",
    "C34_projection_in_camera_plane",
    "C34_no_distortion_is_pinhole",
    "C34_principal_point_undistorted",
    "C34_cost_is_lens_error",
    "C34_undistorted_cost_is_pinhole_error",
    "C34_coefficients_identifiable"
   ],
   "note": ""
  },
  {
   "property": "C35",
   "status": "proved",
   "theorems": [
    "C35_variables_are_angle_axis_and_translation",
    "C35_residual_is_reprojection_error",
    "C35_result_of_2D_problem",
    "C35_result_of_3D_problem",
    "C35_starts_at_the_guess",
    "C35_unmoved_2D",
    "C35_unmoved_3D",
    "C35_succeeds_2D",
    "C35_succeeds_3D",
    "C35_empty_aborts",
    "C35_empty_aborts_3D"
   ],
   "note": ""
  },
  {
   "property": "C36",
   "status": "proved",
   "theorems": [
    "C36_points",
    "C36_number",
    "C36_planar",
    "C36_distinct",
    "C36_next_in_row",
    "C36_next_row",
    "C36_origin"
   ],
   "note": ""
  },
  {
   "property": "C37",
   "status": "proved",
   "theorems": [
    "C37_aruco_pairs",
    "C37_aruco_outcome",
    "C37_aruco_detection",
    "C37_aruco_features",
    "C37_charuco_pairs",
    "C37_charuco_outcome",
    "C37_charuco_features",
    "C37_charuco_no_markers_throws"
   ],
   "note": ""
  },
  {
   "property": "C38",
   "status": "proved",
   "theorems": [
    "C38_partition",
    "C38_keypoints",
    "C38_defined",
    "C38_close",
    "C38_detect"
   ],
   "note": ""
  },
  {
   "property": "C39",
   "status": "proved",
   "theorems": [
    "C39_thresholds",
    "C39_rejects",
    "C39_accepts"
   ],
   "note": ""
  },
  {
   "property": "C40",
   "status": "partial",
   "theorems": [
    "C40_ordered_partial",
    "C40_ordered_refuted",
    "C40_quarter_turn_refuted",
    "C40_transposed_refuted",
    "C40_handled_exactly",
    "C40_wrong_orders",
    "C40_transposed_throws",
    "C40_origin_misplaced",
    "C40_each_once",
    "C40_front_view",
    "C40_correspondences_partial",
    "C40_thin_grid",
    "C40_incomplete_centres"
   ],
   "note": "Proved for the walks the code handles (upright, half turn, quarter turns unless rows divides cols-1, transpositions of square grids), with the view from the front derived from a pin-hole camera; each centre exactly once is proved without restriction. Refuted for all other walks (C40_handled_exactly): grids listed upside down or mirrored (every size), quarter turns when rows divides cols-1, transposed grids that are not square. Single-row or single-column grids and incomplete centres read outside the vectors (UB)."
  },
  {
   "property": "C41",
   "status": "proved",
   "theorems": [
    "C41_parse",
    "C41_failure",
    "C41_no_exception",
    "C41_round_trip",
    "C41_uneven",
    "C41_elsewhere",
    "C41_silent_failure"
   ],
   "note": "The file system, PNG and YAML text are oracles: lossless says which images and documents survive. Saving reports success even when no file could be written (C41_silent_failure)."
  },
  {
   "property": "C42",
   "status": "partial",
   "theorems": [
    "C42_counts_refuted",
    "C42_counts_partial",
    "C42_more_images",
    "C42_fewer_images",
    "C42_no_camera"
   ],
   "note": "Refuted for cameras with different numbers of images: fewer images leave uninitialised entries in the counts, more images write out of bounds. Proved when every camera has the same number of images. The target finder and drawing are oracles."
  },
  {
   "property": "C43",
   "status": "partial",
   "theorems": [
    "C43_intrinsics_param",
    "C43_pose_param",
    "C43_intrinsics_file",
    "C43_pose_file",
    "C43_success_param",
    "C43_success_file",
    "C43_loaders_agree_refuted",
    "C43_loaders_agree_partial",
    "C43_integers"
   ],
   "note": "The code violates the last clause: the parameter loader normalises the quaternion, the file loader does not (C43_loaders_agree_refuted); C43_loaders_agree_partial gives the exact condition. All the other clauses are proved; integers are refused by the parameter loaders only (C43_integers). The ROS parameter server and files are arbitrary maps."
  },
  {
   "property": "C44",
   "status": "proved",
   "theorems": [
    "C44_vectors",
    "C44_transform",
    "C44_intrinsics",
    "C44_correspondences",
    "C44_observations",
    "C44_lists",
    "C44_problem_2D3D",
    "C44_problem_3D3D",
    "C44_labels_lost",
    "C44_reads_vectors",
    "C44_reads_transform",
    "C44_reads_intrinsics",
    "C44_wrong_size",
    "C44_reads_chain",
    "C44_bad_joint_type"
   ],
   "note": "Vectors and transforms are read from any map that has the keys (no size check); labels of a problem are not written, so custom labels are lost (C44_labels_lost). Scalars are modelled by value: the decimal text yaml-cpp writes (which keeps all digits of a double) is not modelled. Random seeds of decoded DH transforms are uninitialised and universally quantified."
  },
  {
   "property": "C45",
   "status": "partial",
   "theorems": [
    "C45_round_trip_refuted",
    "C45_round_trip_value",
    "C45_round_trip_partial",
    "C45_survives_iff",
    "C45_yaw_becomes_roll",
    "C45_written_angles"
   ],
   "note": "The code violates the property: decode applies roll as yaw and yaw as roll (C45_round_trip_refuted). C45_round_trip_value says what comes back for every result; C45_round_trip_partial is the case roll = yaw, which C45_survives_iff shows to be the only one away from gimbal lock. Rotation() is modelled as the linear part."
  },
  {
   "property": "C46",
   "status": "partial",
   "theorems": [
    "C46_correspondences",
    "C46_observations_2D3D",
    "C46_observations_3D3D",
    "C46_observations_symmetric",
    "C46_measurements",
    "C46_kinematic_refuted",
    "C46_kinematic_partial",
    "C46_sizes_differ",
    "C46_problems_2D3D",
    "C46_problems_3D3D",
    "C46_problems_read_equal",
    "C46_origin",
    "C46_circle_grids",
    "C46_aruco_grids",
    "C46_charuco_grids"
   ],
   "note": "The code violates the property for KinematicObservation, which compares its correspondences with themselves (C46_kinematic_refuted, C46_kinematic_partial); everything else is proved. Joint vectors of different sizes fail an Eigen assertion (UB in the model). NaN is not modelled; float subtraction in the board comparisons is taken as exact."
  },
  {
   "property": "C47",
   "status": "proved",
   "theorems": [
    "C47_stored_transform",
    "C47_value_2d3d",
    "C47_zero_2d3d",
    "C47_value_pose",
    "C47_zero_pose",
    "C47_angle_unique",
    "C47_defined_2d3d",
    "C47_defined_pose"
   ],
   "note": ""
  },
  {
   "property": "C48",
   "status": "proved",
   "theorems": [
    "C48_same_blocks",
    "C48_solver_problem_2d3d",
    "C48_solver_problem_pose",
    "C48_starts_at_guesses",
    "C48_common_body",
    "C48_masked_offsets_zero",
    "C48_masked_poses_kept",
    "C48_succeeds_2d3d",
    "C48_succeeds_pose",
    "C48_empty_aborts"
   ],
   "note": ""
  },
  {
   "property": "C49",
   "status": "proved",
   "theorems": [
    "C49_title_layout"
   ],
   "note": "Lengths are assumed not to overflow an int."
  },
  {
   "property": "C50",
   "status": "proved",
   "theorems": [
    "C50_pairs",
    "C50_trigger",
    "C50_save",
    "C50_saved",
    "C50_disk",
    "C50_ends",
    "C50_defined"
   ],
   "note": "ROS callbacks run one after another in ros::spin; roscpp turns an exception of a service callback into a failed call; cv_bridge, OpenCV, tf and the target finder are oracles. A cv::Exception of the target finder ends the node and loses unsaved data (C50_ends)."
  },
  {
   "property": "C51",
   "status": "partial",
   "theorems": [
    "C51_within_limits_partial",
    "C51_seed_decides_value_refuted",
    "C51_seed_only_used_once"
   ],
   "note": "Limits proved; the seed of every joint but the first one drawn in the process is ignored: refuted."
  },
  {
   "property": "C52",
   "status": "proved",
   "theorems": [
    "C52_dh_table",
    "C52_joint_types",
    "C52_labels",
    "C52_relative_transform"
   ],
   "note": ""
  },
  {
   "property": "C53",
   "status": "partial",
   "theorems": [
    "C53_printed_labels",
    "C53_reported_names_partial",
    "C53_reported_names_refuted"
   ],
   "note": "Placeholder parameters of a chain without joints appear in the covariance report: refuted; proved when both chains have joints."
  },
  {
   "property": "C54",
   "status": "partial",
   "theorems": [
    "C54_radius_covariance_refuted",
    "C54_covariance_up_to_scale_partial",
    "C54_names"
   ],
   "note": "The solver's third variable is the square root of the radius and its covariance is reported as that of the radius: refuted; the exact scale factor is proved."
  },
  {
   "property": "C55",
   "status": "proved",
   "theorems": [
    "C55_pairs",
    "C55_outcome",
    "C55_found_points"
   ],
   "note": ""
  },
  {
   "property": "C56",
   "status": "partial",
   "theorems": [
    "C56_circles_partial",
    "C56_circles_refuted",
    "C56_inertia_ratio",
    "C56_ellipse_distance"
   ],
   "note": "The contours accepted are exactly those described (C56_circles_partial), but one that fits its ellipse perfectly has deviation 0 and the code divides by it (C56_circles_refuted), so its confidence is not finite and its keypoint is not a number."
  },
  {
   "property": "C57",
   "status": "partial",
   "theorems": [
    "C57_first_save_refuted",
    "C57_first_save_partial",
    "C57_within_index",
    "C57_longer_refuted",
    "C57_longer_partial",
    "C57_complete",
    "C57_other_data_mixed"
   ],
   "note": "Refuted while the index itself is being written: an opened but unwritten index reads as an empty data set, a partly written one as a first part of the data set. Proved for every interruption before the index is opened; within the index only failure or a first part of the data set can be returned. A torn image or pose file is assumed not to read as an image or a pose."
  },
  {
   "property": "C58",
   "status": "proved",
   "theorems": [
    "C58_value",
    "C58_members",
    "C58_keys",
    "C58_outcomes",
    "C58_empty_array"
   ],
   "note": "Dates and binary values stand for all types toYAML refuses. A string that looks like a number stays a string in the model."
  },
  {
   "property": "C59",
   "status": "proved",
   "theorems": [
    "C59_circle_grid",
    "C59_detector",
    "C59_detector_reported",
    "C59_reported",
    "C59_empty_grid",
    "C59_charuco",
    "C59_from_parameters"
   ],
   "note": "The ChArUco board is created by OpenCV, an unknown function of the written numbers; narrowing to float is not modelled."
  },
  {
   "property": "C60",
   "status": "proved",
   "theorems": [
    "C60_transform",
    "C60_difference",
    "C60_costs"
   ],
   "note": "Numbers are reals: how many digits are printed is not modelled. rotation() is the linear part of a rigid transform. Frame names and descriptions must not be one of the report's own labels."
  },
  {
   "property": "C61",
   "status": "proved",
   "theorems": [
    "C61_camera_on_wrist",
    "C61_static_camera",
    "C61_failures_are_skipped",
    "C61_other_exceptions_end_the_tool",
    "C61_twelve_correspondences",
    "C61_perfect_pictures_pass"
   ],
   "note": ""
  },
  {
   "property": "C62",
   "status": "proved",
   "theorems": [
    "C62_camera_on_wrist",
    "C62_static_camera",
    "C62_perfect_camera_on_wrist",
    "C62_perfect_static_camera",
    "C62_no_usable_image",
    "C62_no_data_set"
   ],
   "note": ""
  },
  {
   "property": "C63",
   "status": "proved",
   "theorems": [
    "C63_statistics",
    "C63_zero_iff_poses_agree",
    "C63_succeeds",
    "C63_more_images_than_observations"
   ],
   "note": ""
  },
  {
   "property": "C64",
   "status": "proved",
   "theorems": [
    "C64_statistics",
    "C64_no_errors_aborts"
   ],
   "note": "For a single error the sample deviation is 0/0, modelled as None; without errors the mean fails an assertion (C64_no_errors_aborts)."
  },
  {
   "property": "C65",
   "status": "partial",
   "theorems": [
    "C65_verdict",
    "C65_sizes_differ_throws",
    "C65_unpaired_features_end_the_loop",
    "C65_no_target_is_reported_refuted"
   ],
   "note": "The verdict, differing sizes and unpairable features are as stated; without any image that shows the target the tool reads outside its list instead of ending with an error (C65_no_target_is_reported_refuted)."
  },
  {
   "property": "C66",
   "status": "partial",
   "theorems": [
    "C66_own_image_refuted",
    "C66_first_image_only",
    "C66_own_image_partial"
   ],
   "note": "False of the code: only the first listed file is ever read (C66_own_image_refuted, C66_first_image_only). Proved for a single file."
  },
  {
   "property": "C67",
   "status": "partial",
   "theorems": [
    "C67_same_correspondences",
    "C67_failures_are_skipped",
    "C67_opencv_exception_ends_the_tool",
    "C67_no_data_set",
    "C67_no_images_is_reported_refuted",
    "C67_no_target_is_reported_refuted"
   ],
   "note": "As stated except that a data set without images or without the target is undefined behaviour instead of an error (C67_*_refuted)."
  },
  {
   "property": "C68",
   "status": "partial",
   "theorems": [
    "C68_same_correspondences",
    "C68_opencv_pose",
    "C68_camera_matrix",
    "C68_opencv_pose_rigid",
    "C68_guess",
    "C68_no_target",
    "C68_finder_throws",
    "C68_opencv_failure_is_reported_refuted"
   ],
   "note": "As stated except that OpenCV's failure flag is ignored (C68_opencv_failure_is_reported_refuted)."
  },
  {
   "property": "C69",
   "status": "proved",
   "theorems": [
    "C69_example_images",
    "C69_reprojections"
   ],
   "note": ""
  },
  {
   "property": "C70",
   "status": "partial",
   "theorems": [
    "C70_uses_pictures_with_target_partial",
    "C70_prints_cameras",
    "C70_returns_partial",
    "C70_missing_data_set_refuted"
   ],
   "note": "What the calibration uses and reports is proved for data sets with equally many pictures and plain tool poses. A data set that cannot be loaded is dereferenced by multi_static_camera_extrinsic (refuted); the other two tools throw."
  },
  {
   "property": "C71",
   "status": "partial",
   "theorems": [
    "C71_uses_common_images_partial",
    "C71_second_step_keeps_relative_poses",
    "C71_no_common_image_refuted",
    "C71_no_common_image",
    "C71_returns"
   ],
   "note": "Use of images, both steps and relative poses proved for plain poses. Without a common image the tool reports all cameras at the base instead of failing (refuted)."
  },
  {
   "property": "C72",
   "status": "partial",
   "theorems": [
    "C72_static_tool_shows",
    "C72_pnp_tool_shows",
    "C72_step_tool_shows_refuted",
    "C72_step_tool_shows_partial"
   ],
   "note": "multi_static_camera_extrinsic and solve_multi_camera_pnp proved. The multi-step tool shows the picture at the position among the used images, not the picture the points were found in (refuted)."
  },
  {
   "property": "C73",
   "status": "partial",
   "theorems": [
    "C73_written_file_loads",
    "C73_unit_quaternion_rigid",
    "C73_outcomes",
    "C73_only_written_refuted",
    "C73_only_written_partial",
    "C73_accepted",
    "C73_rigid_refuted"
   ],
   "note": "Missing joint positions and non-unit quaternions are accepted (refuted). Proved: what is accepted exactly, and that files whose entries list their joints are read as written."
  },
  {
   "property": "C74",
   "status": "proved",
   "theorems": [
    "C74_reports_errors",
    "C74_returns",
    "C74_throws",
    "C74_zero_iff_exact",
    "C74_errors_unique"
   ],
   "note": ""
  },
  {
   "property": "C75",
   "status": "partial",
   "theorems": [
    "C75_optimizations",
    "C75_held",
    "C75_reports",
    "C75_positioner",
    "C75_succeeds",
    "C75_no_file",
    "C75_throws",
    "C75_aborts_refuted"
   ],
   "note": "Proved but for the error outcome: no measurements, or one out of reach, abort the program (refuted)."
  },
  {
   "property": "C76",
   "status": "proved",
   "theorems": [
    "C76_text_lists_everything",
    "C76_warning_lists_large"
   ],
   "note": ""
  },
  {
   "property": "C77",
   "status": "proved",
   "theorems": [
    "C77_image_error_zero_iff_true_pose",
    "C77_point_error_zero_iff_true_pose",
    "C77_no_error_behind_the_camera"
   ],
   "note": ""
  },
  {
   "property": "C78",
   "status": "proved",
   "theorems": [
    "C78_image_error_zero_iff_true_calibration",
    "C78_point_error_zero_iff_true_calibration",
    "C78_one_axis_leaves_it_open",
    "C78_turning_about_a_point_has_a_mirror_image",
    "C78_mirrored_point_has_the_same_pixel"
   ],
   "note": ""
  },
  {
   "property": "C79",
   "status": "proved",
   "theorems": [
    "C79_multi_camera_pnp",
    "C79_static_cameras",
    "C79_wrist_only",
    "C79_cameras_only_fixed",
    "C79_cameras_only_up_to_a_motion",
    "C79_common_motion_is_not_seen"
   ],
   "note": ""
  },
  {
   "property": "C80",
   "status": "proved",
   "theorems": [
    "C80_error_zero_iff_true_circle",
    "C80_two_points_leave_it_open"
   ],
   "note": ""
  },
  {
   "property": "C81",
   "status": "proved",
   "theorems": [
    "C81_last_target_joint",
    "C81_last_camera_joint",
    "C81_first_target_joint",
    "C81_first_camera_joint",
    "C81_base_of_a_fixed_camera",
    "C81_base_of_a_fixed_target",
    "C81_holding_loses_nothing",
    "C81_first_offsets_of_the_best_are_zero",
    "C81_example_reports_no_first_offsets"
   ],
   "note": ""
  },
  {
   "property": "C82",
   "status": "proved",
   "theorems": [
    "C82_camera_parameters",
    "C82_matrix",
    "C82_results",
    "C82_example"
   ],
   "note": ""
  },
  {
   "property": "C83",
   "status": "proved",
   "theorems": [
    "C83_hand_eye",
    "C83_hand_eye_3D",
    "C83_static",
    "C83_free_camera",
    "C83_fixed_camera",
    "C83_wrist",
    "C83_multi_camera_pnp",
    "C83_intrinsic",
    "C83_circle",
    "C83_prior",
    "C83_pnp",
    "C83_pnp_3D",
    "C83_kinematic",
    "C83_kinematic_pose",
    "C83_kinematic_pose_agreement",
    "C83_quaternion_plus"
   ],
   "note": ""
  },
  {
   "property": "C84",
   "status": "partial",
   "theorems": [
    "C84_hand_eye_partial",
    "C84_hand_eye_3D_partial",
    "C84_static_partial",
    "C84_wrist_partial",
    "C84_multi_camera_pnp_partial",
    "C84_pnp_refuted",
    "C84_pnp_3D_refuted",
    "C84_pnp_partial",
    "C84_pnp_3D_partial",
    "C84_kinematic_start",
    "C84_kinematic_plateau",
    "C84_kinematic_flat",
    "C84_kinematic_refuted"
   ],
   "note": "Hand-eye, static cameras, wrist correction and multi-camera PnP: proved. PnP violates it for every problem (C84_pnp_refuted, C84_pnp_3D_refuted: no derivative is a number) and satisfies it for every other guess (C84_pnp_partial, C84_pnp_3D_partial). Kinematic calibration violates it: derivatives by a rotation that starts at zero are always zero (C84_kinematic_flat), though the residuals do change with it (C84_kinematic_refuted)."
  },
  {
   "property": "C85",
   "status": "proved",
   "theorems": [
    "C85_poses",
    "C85_poses_camera_fixed",
    "C85_images",
    "C85_images_camera_fixed"
   ],
   "note": ""
  },
  {
   "property": "C86",
   "status": "proved",
   "theorems": [
    "C86_seen",
    "C86_exactly",
    "C86_one_answer",
    "C86_all_or_error",
    "C86_points",
    "C86_field_of_view"
   ],
   "note": ""
  },
  {
   "property": "C87",
   "status": "proved",
   "theorems": [
    "C87_observations",
    "C87_observations_points",
    "C87_truth_fits",
    "C87_truth_fits_points",
    "C87_only_truth_fits",
    "C87_only_truth_fits_points"
   ],
   "note": ""
  },
  {
   "property": "C88",
   "status": "partial",
   "theorems": [
    "C88_rigid_refuted",
    "C88_hemisphere_partial",
    "C88_cone_partial",
    "C88_grid_partial",
    "C88_counts",
    "C88_sphere",
    "C88_half_sphere",
    "C88_circle",
    "C88_distance",
    "C88_rigid",
    "C88_looks"
   ],
   "note": "Proved for every pose whose view is not along up (the x axis of the frame of the target pose). Along it the result is not rigid (C88_rigid_refuted, and the last part of the partial theorems)."
  },
  {
   "property": "C89",
   "status": "partial",
   "theorems": [
    "C89_turned_refuted",
    "C89_unturned_partial"
   ],
   "note": "Refuted: the poses are exactly those of the inner generator (C89_unturned_partial)."
  },
  {
   "property": "C90",
   "status": "partial",
   "theorems": [
    "C90_looks_refuted",
    "C90_looks_partial",
    "C90_looks_points_partial"
   ],
   "note": "Refuted for targets away from the origin. Proved: the cameras look at the point at the position of the target, taken in the target frame."
  },
  {
   "property": "C91",
   "status": "proved",
   "theorems": [
    "C91_points",
    "C91_measurements",
    "C91_images",
    "C91_images_count",
    "C91_images_in_view",
    "C91_truth_fits_images",
    "C91_truth_fits_measurements"
   ],
   "note": ""
  },
  {
   "property": "C92",
   "status": "proved",
   "theorems": [
    "C92_same_small_move",
    "C92_rigid",
    "C92_no_noise",
    "C92_negative",
    "C92_screw"
   ],
   "note": ""
  },
  {
   "property": "C93",
   "status": "partial",
   "theorems": [
    "C93_limits_refuted",
    "C93_names_refuted",
    "C93_noise_partial",
    "C93_no_noise"
   ],
   "note": "Joints, types, base offset and noise proved. Names and limits are replaced by defaults (refuted)."
  },
  {
   "property": "C94",
   "status": "partial",
   "theorems": [
    "C94_center_refuted",
    "C94_center_partial",
    "C94_center_value",
    "C94_points",
    "C94_origin"
   ],
   "note": "Points and origin proved. The centre is right exactly for square targets (refuted otherwise)."
  },
  {
   "property": "C95",
   "status": "partial",
   "theorems": [
    "C95_fits_refuted",
    "C95_fits_partial",
    "C95_fits_points_partial",
    "C95_points",
    "C95_images"
   ],
   "note": "Mounts and correspondences proved. The true mounts fit exactly if the two bases coincide (refuted otherwise)."
  },
  {
   "property": "C96",
   "status": "proved",
   "theorems": [
    "C96_result_without_error_is_true_camera",
    "C96_two_tilts_determine_camera",
    "C96_parallel_pictures_leave_focal_length_open"
   ],
   "note": ""
  },
  {
   "property": "C97",
   "status": "proved",
   "theorems": [
    "C97_error",
    "C97_pixels",
    "C97_functions_agree"
   ],
   "note": ""
  },
  {
   "property": "C98",
   "status": "proved",
   "theorems": [
    "C98_search",
    "C98_features"
   ],
   "note": ""
  },
  {
   "property": "C99",
   "status": "proved",
   "theorems": [
    "C99_first",
    "C99_finite",
    "C99_rising",
    "C99_even",
    "C99_even_exact",
    "C99_last",
    "C99_whole_range",
    "C99_single",
    "C99_whole_step_missed"
   ],
   "note": ""
  },
  {
   "property": "C100",
   "status": "proved",
   "theorems": [
    "C100_mean",
    "C100_standard_deviation",
    "C100_no_samples"
   ],
   "note": ""
  },
  {
   "property": "C101",
   "status": "proved",
   "theorems": [
    "C101_accurate",
    "C101_bounded",
    "C101_diagonal",
    "C101_above_one"
   ],
   "note": ""
  },
  {
   "property": "C102",
   "status": "proved",
   "theorems": [
    "C102_reported_image_error",
    "C102_image_error",
    "C102_hand_eye_images",
    "C102_rejection",
    "C102_reported_space_error",
    "C102_hand_eye_points",
    "C102_pose_from_picture",
    "C102_pose_from_points",
    "C102_unit_matters_close_up"
   ],
   "note": ""
  },
  {
   "property": "C103",
   "status": "proved",
   "theorems": [
    "C103_cameras_free",
    "C103_targets_free",
    "C103_one_by_one",
    "C103_one_static_camera",
    "C103_one_wrist_camera",
    "C103_pictures_hand_eye",
    "C103_pictures_static",
    "C103_pictures_wrist",
    "C103_pictures_only",
    "C103_pictures_target",
    "C103_one_known_camera"
   ],
   "note": ""
  },
  {
   "property": "C104",
   "status": "proved",
   "theorems": [
    "C104_same_number",
    "C104_near",
    "C104_sixteen_digits"
   ],
   "note": ""
  },
  {
   "property": "C105",
   "status": "partial",
   "theorems": [
    "C105_complete",
    "C105_cut_refuted",
    "C105_cut_partial",
    "C105_cut",
    "C105_cut_not_rigid",
    "C105_other_line"
   ],
   "note": "The code violates it: a file cut within the digits of the last number is read as another pose (C105_cut_refuted, C105_cut_not_rigid). Proved: complete files, refusal of every earlier cut, and what a later cut can give (C105_cut)."
  },
  {
   "property": "C106",
   "status": "proved",
   "theorems": [
    "C106_complete",
    "C106_rounding",
    "C106_first_save",
    "C106_index",
    "C106_shortened",
    "C106_longer_save",
    "C106_changed_pose"
   ],
   "note": ""
  },
  {
   "property": "C107",
   "status": "proved",
   "theorems": [
    "C107_images_reported",
    "C107_poses_reported",
    "C107_images_more_freedom",
    "C107_poses_more_freedom",
    "C107_hand_eye",
    "C107_held_error",
    "C107_held_is_hand_eye"
   ],
   "note": ""
  },
  {
   "property": "C108",
   "status": "proved",
   "theorems": [
    "C108_static_cameras",
    "C108_camera_rig",
    "C108_cameras_and_targets",
    "C108_target_seen_by_cameras",
    "C108_intrinsic_calibration"
   ],
   "note": ""
  },
  {
   "property": "C109",
   "status": "proved",
   "theorems": [
    "C109_never_worse",
    "C109_same_with_found_camera",
    "C109_initial_error"
   ],
   "note": ""
  },
  {
   "property": "C110",
   "status": "proved",
   "theorems": [
    "C110_hand_eye_images_initial",
    "C110_hand_eye_images_again",
    "C110_hand_eye_points_initial",
    "C110_hand_eye_points_again",
    "C110_pose_from_picture_initial",
    "C110_pose_from_picture_again",
    "C110_pose_from_points_initial",
    "C110_pose_from_points_again",
    "C110_static_cameras_initial",
    "C110_static_cameras_again",
    "C110_camera_rig_initial",
    "C110_camera_rig_again",
    "C110_cameras_and_targets_initial",
    "C110_cameras_and_targets_again",
    "C110_target_seen_by_cameras_initial",
    "C110_target_seen_by_cameras_again",
    "C110_circle_initial",
    "C110_circle_again",
    "C110_kinematic_images_initial",
    "C110_kinematic_poses_initial"
   ],
   "note": ""
  },
  {
   "property": "C111",
   "status": "proved",
   "theorems": [
    "C111_images_without_error",
    "C111_points_without_error",
    "C111_images_tell",
    "C111_points_tell",
    "C111_otherwise_another",
    "C111_what_tells_all",
    "C111_two_axes_tell_all",
    "C111_static_cameras_without_error",
    "C111_static_cameras_tell",
    "C111_static_cameras_otherwise_another"
   ],
   "note": ""
  },
  {
   "property": "C112",
   "status": "proved",
   "theorems": [
    "C112_number",
    "C112_transform",
    "C112_difference",
    "C112_results",
    "C112_camera",
    "C112_copied_into_a_file",
    "C112_copied_angles"
   ],
   "note": ""
  },
  {
   "property": "C113",
   "status": "partial",
   "theorems": [
    "C113_wrist_page",
    "C113_static_page",
    "C113_example_page",
    "C113_solve_pnp_page",
    "C113_intrinsic_page",
    "C113_multi_pnp_page",
    "C113_camera_0_to_target_refuted",
    "C113_static_rig_page_partial",
    "C113_image_titles_refuted",
    "C113_step_page_partial"
   ],
   "note": "The code violates the property in two labels: multi_static_camera_extrinsic prints the pose in the first camera that sees the image as that in camera 0 (C113_camera_0_to_target_refuted; C113_static_rig_page_partial says which pose it is), and the multi-step tool numbers only the images that all cameras see (C113_image_titles_refuted, C113_step_page_partial). The other tools print what they say. The statements are about the text of a run that reaches its end."
  },
  {
   "property": "C114",
   "status": "proved",
   "theorems": [
    "C114_turn_about_the_line",
    "C114_line_or_triangle",
    "C114_image_pose_free_to_turn",
    "C114_point_pose_free_to_turn",
    "C114_pnp_same_cost",
    "C114_pnp3_same_cost",
    "C114_points_determine_iff_triangle",
    "C114_line_pictures_undetermined",
    "C114_grid_picture_determines_iff_full",
    "C114_grid_points_determine_iff_full",
    "C114_hand_eye_images_free_to_turn",
    "C114_hand_eye_points_free_to_turn",
    "C114_hand_eye_same_cost",
    "C114_hand_eye3_same_cost",
    "C114_wrist_target_free_to_turn",
    "C114_each_image_free_to_turn",
    "C114_intrinsic_poses_free_to_turn"
   ],
   "note": ""
  },
  {
   "property": "C115",
   "status": "partial",
   "theorems": [
    "C115_images_partial",
    "C115_images_error_partial",
    "C115_images_unit_partial",
    "C115_images_unit_error_partial",
    "C115_poses_partial",
    "C115_poses_error_partial",
    "C115_resized_refuted",
    "C115_unit_refuted",
    "C115_camera_origin_refuted"
   ],
   "note": "Violated by the code. Refuted: with the default (unchanged) deviation of the offsets larger pictures change the best result; in another unit of length no deviation of the offsets is right, as one number serves lengths and angles; with measured poses another origin of the camera frame changes the best result. Proved otherwise: images keep their best result under other base and target frames, other order, resized pictures with the deviation divided by the scale, and another unit if no prior acts on lengths and angles together; measured poses under other base and target frames, a turned camera frame, other order and another unit under the same condition. The camera frame of images cannot be chosen freely, as the projection fixes it."
  },
  {
   "property": "C116",
   "status": "proved",
   "theorems": [
    "C116_pose",
    "C116_pose_best",
    "C116_pose_3d",
    "C116_pose_3d_best",
    "C116_hand_eye",
    "C116_hand_eye_best",
    "C116_hand_eye_3d",
    "C116_hand_eye_3d_best",
    "C116_multi_pose",
    "C116_multi_pose_best",
    "C116_static",
    "C116_static_best",
    "C116_wrist",
    "C116_wrist_best",
    "C116_camera_only",
    "C116_camera_only_best",
    "C116_circle",
    "C116_circle_best"
   ],
   "note": "For noise of every kind below a level that depends on the tolerance; the level itself is not computed. The rigs with several cameras and the circle fit have the version with a small reported cost only."
  },
  {
   "property": "C117",
   "status": "proved",
   "theorems": [
    "C117_noise",
    "C117_noise_3d",
    "C117_halves",
    "C117_accuracy",
    "C117_verdict"
   ],
   "note": ""
  },
  {
   "property": "C118",
   "status": "partial",
   "theorems": [
    "C118_spread_is_seen_refuted",
    "C118_spread_is_seen_partial"
   ],
   "note": "The code violates the property: only the first image file is read, so all pose estimations are equal. Refuted with two perfect pictures half a metre apart; the partial theorem says what is reported. Exact arithmetic and a solver that answers equal problems equally."
  },
  {
   "property": "C119",
   "status": "proved",
   "theorems": [
    "C119_validation",
    "C119_validation_verdict",
    "C119_noise"
   ],
   "note": ""
  },
  {
   "property": "C120",
   "status": "proved",
   "theorems": [
    "C120_images",
    "C120_images_twice",
    "C120_points",
    "C120_points_twice",
    "C120_picture",
    "C120_picture_twice",
    "C120_cloud",
    "C120_cloud_twice",
    "C120_static",
    "C120_static_twice",
    "C120_wrist",
    "C120_wrist_twice",
    "C120_only",
    "C120_only_twice",
    "C120_mpnp",
    "C120_mpnp_twice"
   ],
   "note": ""
  },
  {
   "property": "C121",
   "status": "proved",
   "theorems": [
    "C121_printed_target"
   ],
   "note": ""
  },
  {
   "property": "C122",
   "status": "partial",
   "theorems": [
    "C122_whole_refuted",
    "C122_whole_partial",
    "C122_apart"
   ],
   "note": "The code violates the property for dots over two inches (C122_whole_refuted). C122_whole_partial gives the exact condition."
  },
  {
   "property": "C123",
   "status": "partial",
   "theorems": [
    "C123_as_many_as_asked_refuted",
    "C123_as_many_as_asked_partial",
    "C123_squares",
    "C123_counted"
   ],
   "note": "The code violates the property (C123_as_many_as_asked_refuted). C123_as_many_as_asked_partial says which intersections there are."
  },
  {
   "property": "C124",
   "status": "partial",
   "theorems": [
    "C124_invert_refuted",
    "C124_invert_partial",
    "C124_boards",
    "C124_files"
   ],
   "note": "The code violates the property for --invert False (C124_invert_refuted). C124_invert_partial says when colours are inverted; the statements about boards and files are proved in full."
  },
  {
   "property": "C125",
   "status": "partial",
   "theorems": [
    "C125_circle_grid",
    "C125_circle_grid_nothing",
    "C125_circle_grid_empty",
    "C125_circle_grid_too_few",
    "C125_image_kept_refuted",
    "C125_image_kept_charuco_refuted",
    "C125_image_kept_partial",
    "C125_image_kept_charuco_partial"
   ],
   "note": "The code violates the property for ArUco and ChArUco boards (C125_image_kept_refuted, C125_image_kept_charuco_refuted); the _partial theorems say exactly what is drawn there. For circle grids it is proved."
  },
  {
   "property": "C126",
   "status": "proved",
   "theorems": [
    "C126_runs",
    "C126_status",
    "C126_usage",
    "C126_aborts",
    "C126_numbers"
   ],
   "note": ""
  },
  {
   "property": "C127",
   "status": "proved",
   "theorems": [
    "C127_nearest",
    "C127_distinct",
    "C127_steps",
    "C127_exact",
    "C127_equal_close",
    "C127_close_equal",
    "C127_equal_large"
   ],
   "note": ""
  },
  {
   "property": "C128",
   "status": "partial",
   "theorems": [
    "C128_validation",
    "C128_intrinsic",
    "C128_noise",
    "C128_example_program",
    "C128_hand_eye_refuted",
    "C128_hand_eye_partial",
    "C128_hand_eye_count_partial"
   ],
   "note": "The hand-eye tools warn of images they use but cannot show: C128_hand_eye_refuted; what holds of them: C128_hand_eye_partial, C128_hand_eye_count_partial. The noise tool only looks at its first image (C66). Everything is proved for intrinsic calibration, the check of intrinsics and the example."
  }
 ]
}