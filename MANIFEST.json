{
 "claims": [
  {
   "property": "C01",
   "status": "proved",
   "theorems": [
    "C01_history_sorted_and_windowed",
    "C01_reported_bounds",
    "C01_reported_bounds_static"
   ],
   "note": "Every history of insert/clear, every storage time, any scalar arithmetic."
  },
  {
   "property": "C02",
   "status": "proved",
   "theorems": [
    "C02_accept_rule_one_offer",
    "C02_retained_set_of_history",
    "C02_overflowing_offer"
   ],
   "note": "One-step exact rule and whole-history characterisation; the overflowing-stamp case is covered separately."
  },
  {
   "property": "C03",
   "status": "proved",
   "theorems": [
    "C03_delivery_order_irrelevant"
   ],
   "note": "Samples with pairwise distinct stamps; for equal stamps the first wins (C02)."
  },
  {
   "property": "C04",
   "status": "proved",
   "theorems": [
    "C04_stored_stamp_real",
    "C04_newest_and_oldest_exact",
    "C04_time_zero_is_newest",
    "C04_interior_stamp_exact_refuted",
    "C04_stored_stamp_binary64"
   ],
   "note": "Exact over the reals for every stored stamp; exact in any arithmetic for the newest and oldest sample and for time zero; for interior samples in binary64 exact translation and 332 units of roundoff on the rotation, for finite samples and an accurate libm. The stronger claim of bit-exactness for interior samples is refuted by C04_interior_stamp_exact_refuted (the code interpolates at ratio 0; 0*inf is NaN)."
  },
  {
   "property": "C05",
   "status": "proved",
   "theorems": [
    "C05_no_extrapolation"
   ],
   "note": "Any arithmetic."
  },
  {
   "property": "C06",
   "status": "proved",
   "theorems": [
    "C06_interpolates_the_two_neighbours"
   ],
   "note": "Any arithmetic."
  },
  {
   "property": "C07",
   "status": "proved",
   "theorems": [
    "C07_slerp_unit",
    "C07_slerp_ends",
    "C07_slerp_constant_rate",
    "C07_translation_convex"
   ],
   "note": "Over the reals."
  },
  {
   "property": "C08",
   "status": "proved",
   "theorems": [
    "C08_static_holds_at_every_time"
   ],
   "note": "Any arithmetic, every later history without a usable message for the frame."
  },
  {
   "property": "C09",
   "status": "proved",
   "theorems": [
    "C09_frame_kind_never_changes",
    "C09_first_accepted_decides"
   ],
   "note": "Any arithmetic, every later history."
  },
  {
   "property": "C10",
   "status": "proved",
   "theorems": [
    "C10_malformed_changes_nothing",
    "C10_accepted_iff",
    "C10_norm_test_over_reals",
    "C10_nan_refused_in_binary64",
    "C10_infinite_translation_accepted_refuted",
    "C10_nearly_unit_rotation_is_well_formed"
   ],
   "note": "Exact acceptance condition in any arithmetic, with the numeric test restated over the reals and for NaN in binary64. Side conditions: stamp + storage time representable (else C29), child not the reserved name NO_PARENT. Also recorded: infinite translations pass the test. Conversely, in binary64 a finite rotation within 0.0099 passes (C10_nearly_unit_rotation_is_well_formed)."
  },
  {
   "property": "C11",
   "status": "proved",
   "theorems": [
    "C11_rejected_transform_no_effect"
   ],
   "note": "All three queries, up to the frame listing inside a loop error text."
  },
  {
   "property": "C12",
   "status": "proved",
   "theorems": [
    "C12_ids_are_stable",
    "C12_ids_are_a_bijection"
   ],
   "note": "Includes _getFrameStrings and the exclusion of the reserved id 0."
  },
  {
   "property": "C13",
   "status": "proved",
   "theorems": [
    "C13_can_iff_lookup",
    "C13_lookup_implies_can",
    "C13_can_implies_lookup_or_range_error",
    "C13_can_returns",
    "C13_can_with_error_string",
    "C13_beyond_2038_refuted"
   ],
   "note": "Equivalence before 2038; both directions beyond, with a witness of the divergence."
  },
  {
   "property": "C14",
   "status": "proved",
   "theorems": [
    "C14_can_iff_lookup_fixed"
   ],
   "note": "Before 2038."
  },
  {
   "property": "C15",
   "status": "proved",
   "theorems": [
    "C15_lookup_of_itself"
   ],
   "note": "Stamp at time zero stated for known names."
  },
  {
   "property": "C16",
   "status": "proved",
   "theorems": [
    "C16_header"
   ],
   "note": "Any arithmetic, every reachable state."
  },
  {
   "property": "C17",
   "status": "proved",
   "theorems": [
    "C17_latest_equals_at_its_stamp"
   ],
   "note": "Any arithmetic: the very same message."
  },
  {
   "property": "C18",
   "status": "proved",
   "theorems": [
    "C18_latest_common_time_is_oldest_of_newest",
    "C18_disconnected",
    "C18_nearest_common_ancestor_exists"
   ],
   "note": "A newest stamp equal to ros::TIME_MAX counts as none, as in the code."
  },
  {
   "property": "C19",
   "status": "proved",
   "theorems": [
    "C19_lookup_is_path_composition",
    "C19_exact_product",
    "C19_unit_messages_keep_unit",
    "C19_result_is_unit"
   ],
   "note": "Over the reals with unit stored rotations, preserved by every history of unit messages; the exact product in any arithmetic. Lookups at the resolved stamp, so time zero is covered."
  },
  {
   "property": "C20",
   "status": "proved",
   "theorems": [
    "C20_lookup_succeeds_iff_common_ancestor",
    "C20_own_parent_always_works"
   ],
   "note": "Before 2038 (see C29)."
  },
  {
   "property": "C21",
   "status": "proved",
   "theorems": [
    "C21_inverse",
    "C21_inverse_latest",
    "C21_chain",
    "C21_pose_operations_mean_motions",
    "C21_latest_common_time_symmetric",
    "C21_non_unit_refuted"
   ],
   "note": "Over the reals with unit stored rotations; time zero for the inverse; refuted in binary64 for accepted non-unit quaternions."
  },
  {
   "property": "C22",
   "status": "proved",
   "theorems": [
    "C22_every_lookup_ends",
    "C22_cycle_is_reported",
    "C22_deep_source_reported_as_loop",
    "C22_deep_target_reported_as_loop"
   ],
   "note": "Depth bound stated for the source and for the target chain."
  },
  {
   "property": "C23",
   "status": "proved",
   "theorems": [
    "C23_invalid_argument_iff",
    "C23_unknown_frame",
    "C23_three_outcomes",
    "C23_connectivity_iff",
    "C23_extrapolation_iff"
   ],
   "note": "Exact conditions at nonzero times; time zero resolves through C54/C17."
  },
  {
   "property": "C24",
   "status": "proved",
   "theorems": [
    "C24_fixed_succeeds_iff",
    "C24_fixed_header",
    "C24_fixed_is_product",
    "C24_same_time_is_direct"
   ],
   "note": "Success condition and header in any arithmetic; the motion over the reals up to quaternion sign."
  },
  {
   "property": "C25",
   "status": "proved",
   "theorems": [
    "C25_interleaving_across_frames_invisible",
    "C25_delivery_order_invisible",
    "C25_answers_depend_on_histories_only"
   ],
   "note": "Up to the frame listing inside a loop error text. lookup(f,f,0) of an unknown f excluded: it reads frame 0."
  },
  {
   "property": "C26",
   "status": "proved",
   "theorems": [
    "C26_other_histories_untouched",
    "C26_unrelated_lookups_untouched"
   ],
   "note": "At nonzero times for names whose upward chain does not pass through the child. The composition part is C19."
  },
  {
   "property": "C27",
   "status": "proved",
   "theorems": [
    "C27_clear_forgets_dynamic",
    "C27_clear_keeps_static",
    "C27_clear_keeps_names",
    "C27_fresh_start_after_clear"
   ],
   "note": "Any arithmetic, every reachable state."
  },
  {
   "property": "C28",
   "status": "proved",
   "theorems": [
    "C28_slash_has_no_effect_on_set",
    "C28_strip_is_remove_one_slash",
    "C28_accepted_name_is_queryable",
    "C28_double_slash_unreachable_refuted"
   ],
   "note": "With the refutation for two leading slashes."
  },
  {
   "property": "C29",
   "status": "proved",
   "theorems": [
    "C29_no_runtime_error_before_2038",
    "C29_set_throws_refuted",
    "C29_lookup_throws_refuted"
   ],
   "note": "With witnesses for setTransform and lookupTransform beyond the range."
  },
  {
   "property": "C30",
   "status": "proved",
   "theorems": [
    "C30_accepted_transform_settles_due_requests",
    "C30_rejected_transform_notifies_nobody",
    "C30_add_request_answers",
    "C30_available_is_canTransform",
    "C30_notified_at_most_once",
    "C30_time_range_refuted"
   ],
   "note": "Exact settlement (as permutations, any arithmetic) and whole-history at-most-once. C30_time_range_refuted shows the range hypothesis is needed: one request near TIME_MAX makes setTransform throw and due requests vanish silently."
  },
  {
   "property": "C31",
   "status": "proved",
   "theorems": [
    "C31_names_and_handle_are_the_requests_own",
    "C31_time_is_never_the_requests_own_refuted"
   ],
   "note": "By-value arguments proved right; the by-reference time argument is proved never to designate the request's own time (C31_time_is_never_the_requests_own_refuted, with a concrete wrong delivery in C31_example). The result argument is a reference to a destroyed local; modelled as unavailable."
  },
  {
   "property": "C32",
   "status": "proved",
   "theorems": [
    "C32_cancelled_never_fires",
    "C32_cancel_removes_only_that_request",
    "C32_removed_callback_never_invoked",
    "C32_remove_callback_drops_its_requests",
    "C32_cancel_above_32_bits_refuted"
   ],
   "note": "Proved for handles below 2^32; C32_cancel_above_32_bits_refuted gives the history of 2^32+3 calls in which the cancelled request fires and request 1 is removed instead."
  },
  {
   "property": "C33",
   "status": "proved",
   "theorems": [
    "C33_pending_handles_distinct",
    "C33_handles_increase",
    "C33_callback_handle_fresh",
    "C33_wrap_around_refuted"
   ],
   "note": "Proved up to wrap-around; C33_wrap_around_refuted is the 2^64-1 request history with a duplicate handle."
  },
  {
   "property": "C34",
   "status": "proved",
   "theorems": [
    "C34_only_requests_stored_after_the_last_test_can_miss_it",
    "C34_every_test_settles_all_due_requests",
    "C34_accepted_insertion_will_be_tested",
    "C34_uninterrupted_setTransform",
    "C34_uninterrupted_addTransformableRequest",
    "C34_lost_wakeup_refuted"
   ],
   "note": "Small-step model at lock boundaries, arbitrary interleavings; tied to the sequential model by the two C34_uninterrupted_ theorems; lost wake-up exhibited by C34_lost_wakeup_refuted."
  },
  {
   "property": "C35",
   "status": "proved",
   "theorems": [
    "C35_path_is_well_defined",
    "C35_chain_is_tree_path",
    "C35_chain_through_fixed_frame",
    "C35_turning_at_parent_lists_up_to_root",
    "C35_every_chain_is_the_tree_path_refuted"
   ],
   "note": "Positive theorems for every shape except the one in which the code is wrong; that shape is characterised exactly (C35_turning_at_parent_lists_up_to_root) and a binary64 witness refutes the unrestricted claim."
  },
  {
   "property": "C36",
   "status": "proved",
   "theorems": [
    "C36_product_group",
    "C36_rotation_action",
    "C36_axis_angle",
    "C36_axis_angle_back",
    "C36_nearest_farthest"
   ],
   "note": "Over the reals."
  },
  {
   "property": "C37",
   "status": "proved",
   "theorems": [
    "C37_quaternion_to_matrix",
    "C37_matrix_to_quaternion",
    "C37_non_unit_refuted"
   ],
   "note": "Over the reals; includes the refutation that matrix and quatRotate agree for non-unit quaternions."
  },
  {
   "property": "C38",
   "status": "proved",
   "theorems": [
    "C38_transform_group",
    "C38_transform_action"
   ],
   "note": "Over the reals."
  },
  {
   "property": "C39",
   "status": "proved",
   "theorems": [
    "C39_setters_agree",
    "C39_setEuler",
    "C39_getter_correct",
    "C39_angles_round_trip",
    "C39_at_gimbal_lock",
    "C39_gimbal_lock_refuted",
    "C39_setRPY_in_doubles"
   ],
   "note": "Over the reals (no signed zeros); gimbal lock characterised and refuted. setRPY also in binary64."
  },
  {
   "property": "C40",
   "status": "proved",
   "theorems": [
    "C40_agrees_with_matrix",
    "C40_correct_iff",
    "C40_yaw_is_the_yaw",
    "C40_gimbal_refuted"
   ],
   "note": "Over the reals; exact condition for correctness, refuted near the poles."
  },
  {
   "property": "C41",
   "status": "proved",
   "theorems": [
    "C41_point_is_rotated_then_translated",
    "C41_vector_is_rotated",
    "C41_rigid",
    "C41_quaternion_length_is_ignored",
    "C41_action",
    "C41_stamped_messages_take_the_header_of_the_transform",
    "C41_zero_quaternion_refuted"
   ],
   "note": "Over the reals for unit (resp. nonzero) quaternions, with input/output as possibly equal memory addresses; headers for every scalar; NaN witness for the zero quaternion."
  },
  {
   "property": "C42",
   "status": "proved",
   "theorems": [
    "C42_quaternion_is_multiplied",
    "C42_pose_is_composed",
    "C42_pose_orientation_is_normalised",
    "C42_action",
    "C42_transform_is_composed"
   ],
   "note": "Over the reals; orientation up to quaternion sign."
  },
  {
   "property": "C43",
   "status": "proved",
   "theorems": [
    "C43_covariance_is_conjugated",
    "C43_covariance_stays_a_covariance",
    "C43_action"
   ],
   "note": "All 36 entries, over the reals."
  },
  {
   "property": "C44",
   "status": "proved",
   "theorems": [
    "C44_wrench_is_moved",
    "C44_moments_are_preserved",
    "C44_action"
   ],
   "note": "Over the reals."
  },
  {
   "property": "C45",
   "status": "proved",
   "theorems": [
    "C45_exact_round_trips",
    "C45_stamped_message_round_trips",
    "C45_transform_round_trips",
    "C45_child_frame_refuted"
   ],
   "note": "Exact round trips for every scalar; transforms over the reals; child_frame_id loss shown by C45_child_frame_refuted."
  },
  {
   "property": "C46",
   "status": "proved",
   "theorems": [
    "C46_messages_are_numbered_by_add",
    "C46_each_message_is_reported_at_most_once",
    "C46_ready_only_when_transformable",
    "C46_refusals_are_justified"
   ],
   "note": "Messages are identified by the position of their add() call (ghost number, tied down by C46_messages_are_numbered_by_add). Histories include other clients of the buffer, callback queue or not, any value read through the dangling result reference."
  },
  {
   "property": "C47",
   "status": "proved",
   "theorems": [
    "C47_queue_stays_bounded",
    "C47_full_queue_drops_exactly_the_oldest",
    "C47_dropped_message_cancels_its_requests",
    "C47_shrinking_refuted"
   ],
   "note": "C47_shrinking_refuted: three messages stay queued under queue size 1."
  },
  {
   "property": "C48",
   "status": "proved",
   "theorems": [
    "C48_queued_messages_have_a_pending_request",
    "C48_nothing_transformable_stays_queued",
    "C48_transformable_messages_become_ready",
    "C48_add_does_not_throw",
    "C48_reconfiguration_strands_messages_refuted",
    "C48_dangling_result_drops_messages_refuted",
    "C48_lost_wakeup_refuted",
    "C48_stamp_out_of_range_throws_refuted",
    "C48_refused_message_leaks_requests_refuted"
   ],
   "note": "Proved for calm histories (definition in SpecFilter.v); five _refuted witnesses show what happens outside them."
  },
  {
   "property": "C49",
   "status": "proved",
   "theorems": [
    "C49_each_goal_is_finished_waiting_or_abandoned",
    "C49_nothing_for_goals_that_never_came",
    "C49_no_goal_is_abandoned",
    "C49_tick_answers_exactly_the_due_goals",
    "C49_new_goal",
    "C49_deadlines_and_results_are_genuine",
    "C49_no_goal_outlives_a_tick_after_its_deadline",
    "C49_no_error_before_the_deadline",
    "C49_cancel",
    "C49_range_error_starves_all_others_refuted",
    "C49_timeout_overflow_loses_the_goal_refuted",
    "C49_early_cancel_is_lost_refuted"
   ],
   "note": "All interleavings of goalCB (two steps), cancelCB and checkTransforms; actionlib is modelled as the events it reports. Three refuted corners, each with a theorem."
  },
  {
   "property": "C50",
   "status": "proved",
   "theorems": [
    "C50_remote_equals_local",
    "C50_goal_asks_the_question",
    "C50_can_iff_lookup",
    "C50_codes_round_trip",
    "C50_padding_overflow_refuted"
   ],
   "note": "C++ BufferClient composed with the server model of C49; actionlib's client is an arbitrary function from goals to replies whose successful replies come from the server."
  },
  {
   "property": "C51",
   "status": "proved",
   "theorems": [
    "C51_one_latest_per_child",
    "C51_late_subscriber_catches_up",
    "C51_latched_message",
    "C51_plain_broadcaster",
    "C51_python_late_subscriber_refuted",
    "C51_malformed_replaces_refuted"
   ],
   "note": "C++ broadcasters over every call sequence; the latched-topic transport itself (roscpp) is modelled as 'a late subscriber first receives the last message published'. Refutation witnesses for the Python class and for malformed transforms."
  },
  {
   "property": "C52",
   "status": "proved",
   "theorems": [
    "C52_listener_makes_exactly_these_calls",
    "C52_clears_exactly_on_backward_jumps",
    "C52_first_message_never_clears",
    "C52_listener_returns",
    "C52_jump_forgets_time_varying_data",
    "C52_malformed_transform_is_skipped",
    "C52_range_error_loses_the_rest_refuted",
    "C52_deaf_after_long_jump_refuted"
   ],
   "note": "TransformListener callback over every sequence of arrivals; subscription queues and the spinner thread are not modelled (a sequence of arrivals in processing order is). Two refuted corners: uncaught rostime range error, and backward jumps of at least 2^31 s."
  },
  {
   "property": "C53",
   "status": "proved",
   "theorems": [
    "C53_answer_is_current",
    "C53_false_only_for_a_reason",
    "C53_false_means_timeout",
    "C53_sleeps_only_if_needed",
    "C53_returns_at_once_if_available",
    "C53_wakes_up",
    "C53_returns_after_the_timeout",
    "C53_no_exception",
    "C53_lookup_is_current",
    "C53_lookup_succeeds_iff_can",
    "C53_paused_clock_blocks_forever_refuted",
    "C53_without_thread_false_although_available_refuted",
    "C53_cleared_between_polls_refuted"
   ],
   "note": "C++ Buffer (the Python one is C71); the environment is an arbitrary sequence of instants, one per observation. The length of a sleep (timeout*0.01 in double) is not modelled: sleeps take as long as the environment says."
  },
  {
   "property": "C54",
   "status": "proved",
   "theorems": [
    "C54_latest_lookup_succeeds_iff",
    "C54_connected_but_no_common_time_refuted"
   ],
   "note": "The naive claim (connected implies success) is refuted; the exact condition is proved."
  },
  {
   "property": "C55",
   "status": "proved",
   "theorems": [
    "C55_every_point_and_nothing_else",
    "C55_points_are_moved",
    "C55_missing_field_leaves_a_mislabelled_copy",
    "C55_ragged_data_is_undefined",
    "C55_python_moves_the_first_three_values",
    "C55_python_layout_refuted"
   ],
   "note": "Byte-level model, any float encoding; exact motion over the reals for unit quaternions. Limits proved: missing field leaves a mislabelled copy, ragged data is undefined behaviour, Python ignores the field names (C55_python_layout_refuted)."
  },
  {
   "property": "C56",
   "status": "proved",
   "theorems": [
    "C56_matrix_inverse"
   ],
   "note": "Over the reals."
  },
  {
   "property": "C57",
   "status": "proved",
   "theorems": [
    "C57_clear_forgets_earlier_messages",
    "C57_clear_withdraws_the_requests",
    "C57_clear_keeps_the_filter_working"
   ],
   "note": "Covers both delivery modes (direct and through a callback queue)."
  },
  {
   "property": "C58",
   "status": "proved",
   "theorems": [
    "C58_get_parent_is_the_parent_at_that_time",
    "C58_get_parent_of_unknown_frame",
    "C58_unknown_frame_has_a_parent_refuted",
    "C58_all_frames_as_string",
    "C58_all_frames_as_yaml",
    "C58_broadcaster_is_the_last_accepted_sender",
    "C58_all_frames_as_dot"
   ],
   "note": "Printed text is represented by its content before formatting to 3 decimals. Refuted corner: after a message for a child named NO_PARENT, _getParent of unknown names returns that frame's parent."
  },
  {
   "property": "C59",
   "status": "proved",
   "theorems": [
    "C59_output_may_be_the_input"
   ],
   "note": "For every scalar type and every aliasing of the references."
  },
  {
   "property": "C60",
   "status": "proved",
   "theorems": [
    "C60_points_agree",
    "C60_vectors_agree",
    "C60_poses_agree",
    "C60_frames_agree",
    "C60_wrenches_agree",
    "C60_twist_velocities_are_carried_along",
    "C60_python_wrench_is_only_rotated",
    "C60_python_wrench_refuted",
    "C60_eigen_quaternion_is_conjugated",
    "C60_eigen_quaternion_any_length",
    "C60_eigen_quaternion_refuted",
    "C60_bullet_ignores_the_length",
    "C60_length_refuted"
   ],
   "note": "Over the reals for unit quaternions; Eigen, KDL and Bullet operations are written after their published sources (trusted). The disagreements found are _refuted theorems: Python wrench, Eigen quaternion, non-unit quaternions."
  },
  {
   "property": "C61",
   "status": "proved",
   "theorems": [
    "C61_transform_is_lookup_then_doTransform",
    "C61_transform_of_a_transform",
    "C61_value_forms_change_nothing",
    "C61_exception_changes_nothing",
    "C61_two_types",
    "C61_types_write_only_their_output",
    "C61_lookup_message",
    "C61_lookup_message_fixed",
    "C61_works_iff_canTransform",
    "C61_frame_and_stamp",
    "C61_point_follows_the_tree",
    "C61_round_trip",
    "C61_way_back",
    "C61_two_hops",
    "C61_through_a_fixed_frame",
    "C61_convert_between_libraries",
    "C61_convert_same_type"
   ],
   "note": "Writes/exceptions/frames for every scalar and every interface; round trips, hops and fixed-frame composition over the reals with unit samples (poses up to quaternion sign). PointCloud2 is not an instance (its doTransform can throw); waiting is C53."
  },
  {
   "property": "C62",
   "status": "proved",
   "theorems": [
    "C62_exact_conversions",
    "C62_frame_conversions",
    "C62_new_messages_have_empty_headers",
    "C62_header_refuted"
   ],
   "note": "Exact conversions for every scalar; frames/poses/transforms over the reals. C62_header_refuted: the transform conversions drop header and child frame."
  },
  {
   "property": "C63",
   "status": "proved",
   "theorems": [
    "C63_never_deadlocks",
    "C63_every_thread_finishes",
    "C63_callback_adding_to_its_own_filter_refuted",
    "C63_callback_setting_a_transform_refuted",
    "C63_clear_against_a_queued_callback_refuted"
   ],
   "note": "Model: mutexes and shared variables only, each function as the set of its lock/access traces (every branch allowed), so it over-approximates the runs; thread bodies are finite. message_filters::Signal1, roscpp CallbackQueue, actionlib and boost::shared_mutex are modelled from their documented behaviour (not in /repo)."
  },
  {
   "property": "C64",
   "status": "proved",
   "theorems": [
    "C64_lists_and_queues_never_race",
    "C64_transforms_never_race_without_requests",
    "C64_names_never_race_without_fixed_lookups",
    "C64_fixed_frame_lookup_races_refuted",
    "C64_requests_race_with_setTransform_refuted",
    "C64_callback_used_while_destroyed_refuted",
    "C64_reconfiguring_a_filter_races_refuted"
   ],
   "note": "Same model as C63. Memory accesses are grouped into named shared variables; a race is two threads about to access one variable, one writing."
  },
  {
   "property": "C65",
   "status": "proved",
   "theorems": [
    "C65_angle",
    "C65_distance_is_a_metric",
    "C65_rigid_motions_keep_distances",
    "C65_normalized",
    "C65_lerp",
    "C65_axes",
    "C65_componentwise",
    "C65_products",
    "C65_mixed_products",
    "C65_plane_space",
    "C65_opengl",
    "C65_normalized_zero_refuted"
   ],
   "note": "Real arithmetic, except the OpenGL round trip (any scalar) and the binary64 witness."
  },
  {
   "property": "C66",
   "status": "proved",
   "theorems": [
    "C66_angle_of_a_rotation",
    "C66_angle_between_rotations",
    "C66_shortest_arc",
    "C66_shortest_arc_opposite",
    "C66_normalize2",
    "C66_normalize_angle",
    "C66_clamped_asin_acos"
   ],
   "note": "Real arithmetic; fmod is C's remainder on reals and TF2SIMD_2_PI is taken as 2*pi."
  },
  {
   "property": "C67",
   "status": "proved",
   "theorems": [
    "C67_lookup_rounding_error",
    "C67_near_unit_rotations"
   ],
   "note": "Binary64 is Coq's SpecFloat; its operations are proved equal to Flocq's rounded real operations (FloatErr.v; no float axioms). Error analysis by induction over the climb. The links themselves (stored or interpolated samples) are taken as given here."
  },
  {
   "property": "C68",
   "status": "proved",
   "theorems": [
    "C68_interpolated_sample",
    "C68_accepted_rotation",
    "C68_lookup_is_finite"
   ],
   "note": "accurate_libm is a hypothesis about the C library (sin on |x|<=2 and acos on [-1,1] within 4*2^-53 relative error, 2^-1075 absolute at underflow); C68_accurate_libm_example shows correctly rounded functions meet it."
  },
  {
   "property": "C69",
   "status": "proved",
   "theorems": [
    "C69_exact_below_2_23_s",
    "C69_off_by_at_most_119_ns",
    "C69_all_but_the_last_238_ns",
    "C69_order_is_kept",
    "C69_second_trip_is_exact",
    "C69_exact_refuted",
    "C69_distinct_stamps_coincide_refuted"
   ],
   "note": "genpy's to_sec and rostime's fromSec are outside the repository; PyTime.v states their arithmetic (binary64 SpecFloat) and the theorems quantify over every time."
  },
  {
   "property": "C70",
   "status": "proved",
   "theorems": [
    "C70_python_buffer_is_the_cpp_buffer",
    "C70_same_buffer_below_2_23_s",
    "C70_lookup_is_the_cpp_lookup",
    "C70_full_lookup_is_the_cpp_lookup",
    "C70_default_cache_time",
    "C70_can_iff_lookup",
    "C70_can_full_iff_lookup_full",
    "C70_stamp_of_the_answer",
    "C70_latest_then_at_its_stamp",
    "C70_latest_common_time",
    "C70_chain_is_the_cpp_chain",
    "C70_chain_is_the_tree_path",
    "C70_second_of_two_close_transforms_is_lost_refuted",
    "C70_crash_from_2038_refuted"
   ],
   "note": "Any Scalar. 2038 bound: beyond it C70_crash_from_2038_refuted. Duck-typed arguments, reference counts and NUL bytes in names are not modelled."
  },
  {
   "property": "C71",
   "status": "proved",
   "theorems": [
    "C71_no_timeout_no_wait",
    "C71_answer_is_current",
    "C71_false_only_for_a_reason",
    "C71_exceptions_only_from_sleep",
    "C71_sleeps_only_if_needed",
    "C71_returns_at_once_if_there",
    "C71_wakes_up",
    "C71_returns_after_the_timeout",
    "C71_lookup_is_current",
    "C71_clock_jump_ends_the_wait_refuted"
   ],
   "note": "rospy.sleep is an arbitrary outcome of the world (returns or raises); the length of sleeps is up to the world."
  },
  {
   "property": "C72",
   "status": "proved",
   "theorems": [
    "C72_buffer_is_a_merge_of_the_messages",
    "C72_callbacks_never_fail",
    "C72_one_message_at_a_time",
    "C72_jump_forgets_what_was_set",
    "C72_no_jump_no_clear",
    "C72_buffer_is_fresh_after_a_jump_refuted"
   ],
   "note": "buffer calls are atomic (frame_mutex_); thread per connection is rospy behaviour and the schedules quantified over are a superset of it."
  },
  {
   "property": "C73",
   "status": "proved",
   "theorems": [
    "C73_last_registration_counts",
    "C73_import_order_is_irrelevant",
    "C73_bad_objects_are_refused_without_a_lookup",
    "C73_exactly_one_lookup",
    "C73_result_is_the_object_moved",
    "C73_in_front_of_a_buffer",
    "C73_registered_conversions_are_used",
    "C73_convert_to_the_same_class",
    "C73_point_and_vector_round_trip",
    "C73_transform_then_convert",
    "C73_convert_raises_TypeException",
    "C73_class_of_the_result",
    "C73_invalid_conversion_is_not_refused_refuted"
   ],
   "note": "objects are values with their class; registered callbacks are functions; deepcopy returns an equal object; values over the reals, the rest for any arithmetic."
  },
  {
   "property": "C74",
   "status": "proved",
   "theorems": [
    "C74_remote_equals_local",
    "C74_same_as_the_cpp_client",
    "C74_can_iff_lookup",
    "C74_interchangeable_with_a_local_buffer",
    "C74_transform_through_a_client",
    "C74_client_and_buffer_differ_refuted"
   ],
   "note": "the action client is an arbitrary function from goals to replies; served says that successful replies come from the server."
  },
  {
   "property": "C75",
   "status": "proved",
   "theorems": [
    "C75_what_is_published",
    "C75_when_it_gives_up",
    "C75_angles",
    "C75_every_listener_has_it",
    "C75_published_means_usable_refuted",
    "C75_whole_numbers_refuted",
    "C75_angles_are_accepted"
   ],
   "note": "atof, the parameter server and the clock are arbitrary functions; XmlRpcValue's conversions as in xmlrpcpp. C75_every_listener_has_it is over the reals (exact numbers), C75_angles_are_accepted in binary64 for an accurate sin and cos."
  },
  {
   "property": "C76",
   "status": "proved",
   "theorems": [
    "C76_angles_are_the_rotation",
    "C76_angle_ranges",
    "C76_setRPY_then_echo",
    "C76_same_angles_as_tf2",
    "C76_short_quaternion_refuted",
    "C76_one_attempt",
    "C76_prints_the_buffers_transform",
    "C76_session",
    "C76_limit",
    "C76_keeps_trying_refuted",
    "C76_cache_option_refuted",
    "C76_zero_offset_refuted"
   ],
   "note": "Angles over the reals only (no rounding). rospy.Time(float), rospy.Duration(float) are arbitrary functions; that a rospy.Timer thread ends when its callback raises is assumed about rospy. Three parts of what a user expects are refuted with witnesses."
  },
  {
   "property": "C77",
   "status": "proved",
   "theorems": [
    "C77_draws_the_tree",
    "C77_outcomes",
    "C77_unbound_means_cycles",
    "C77_cleared_buffer_refuted",
    "C77_odd_names_refuted"
   ],
   "note": "The content of the YAML text, not its bytes; what PyYAML makes of an unquoted key is a parameter. Names that break YAML's syntax are outside the model. Three expectations are refuted with witnesses."
  },
  {
   "property": "C78",
   "status": "proved",
   "theorems": [
    "C78_factorises",
    "C78_rotation",
    "C78_eigenvectors",
    "C78_converges",
    "C78_stays_symmetric",
    "C78_documented_stop_refuted",
    "C78_exact_rotation_refuted"
   ],
   "note": "Over the reals (rounding not counted), except symmetry, which holds for every arithmetic. Two documented claims are refuted with witnesses."
  },
  {
   "property": "C79",
   "status": "proved",
   "theorems": [
    "C79_extrapolation_text",
    "C79_connectivity_text",
    "C79_loop_text",
    "C79_bad_name_text",
    "C79_bad_name_text_fixed",
    "C79_can_explains",
    "C79_can_fixed_explains",
    "C79_can_missing_text",
    "C79_can_missing_text_fixed",
    "C79_success_is_silent",
    "C79_bad_name_is_silent_refuted",
    "C79_bad_name_is_silent_fixed_refuted",
    "C79_stale_text_refuted"
   ],
   "note": "Texts are structured values (which text, with which names and stamps); rendering to characters is not modelled. The two exceptions are shown as _refuted theorems."
  },
  {
   "property": "C80",
   "status": "proved",
   "theorems": [
    "C80_at_most_one_verdict",
    "C80_no_message_forgotten",
    "C80_losses_explained",
    "C80_queue_bounded",
    "C80_ready_was_transformable",
    "C80_no_deadlock",
    "C80_no_livelock",
    "C80_calls_can_finish",
    "C80_add_alone_is_sequential",
    "C80_transform_alone_is_sequential",
    "C80_reconfiguration_race_refuted",
    "C80_clear_strands_running_add_refuted"
   ],
   "note": "Steps are split at lock boundaries and between accesses to unprotected members; sequentially consistent single accesses (C64 lists the data races). The two exceptions are _refuted theorems. That a queued message is eventually reported is not claimed here (C48_lost_wakeup_refuted)."
  },
  {
   "property": "C81",
   "status": "proved",
   "theorems": [
    "C81_sample_stays",
    "C81_nothing_stays",
    "C81_answers_stay",
    "C81_answers_stay_real",
    "C81_no_new_answers",
    "C81_answers_remain",
    "C81_latest_again",
    "C81_newest_stamp_refuted"
   ],
   "note": "Bitwise for any arithmetic between stored stamps; at stored stamps over the reals (the binary64 exception is C81_newest_stamp_refuted). The two one-sided theorems (data pushed out, late data) are over the reals."
  },
  {
   "property": "C82",
   "status": "proved",
   "theorems": [
    "C82_every_execution_is_accounted_for",
    "C82_linearizable",
    "C82_states_are_reachable",
    "C82_answer_of_a_moment",
    "C82_fixed_lookup_of_a_moment",
    "C82_fixed_lookup_refuted",
    "C82_no_deadlock",
    "C82_no_livelock",
    "C82_calls_can_finish"
   ],
   "note": "Visits to the shared data are atomic and nobody listens for changes (requests: C34, C80). The fixed-frame lookup is not atomic: C82_fixed_lookup_refuted is an execution with a torn answer; its unlocked check of the names is a data race in C++ (C64). No deadlock and termination are for every interleaving; fairness of the scheduler is not needed."
  },
  {
   "property": "C83",
   "status": "proved",
   "theorems": [
    "C83_point_accuracy",
    "C83_vector_accuracy",
    "C83_length_is_kept",
    "C83_quaternion_accuracy",
    "C83_point_through_lookup"
   ],
   "note": "IEEE 754 binary64, round to nearest even, no fused multiply-add. Poses are C85; wrenches and covariances are not bounded."
  },
  {
   "property": "C84",
   "status": "proved",
   "theorems": [
    "C84_each_filter_as_if_alone",
    "C84_each_filter_is_a_filter",
    "C84_others_leave_a_filter_alone",
    "C84_transform_reaches_every_filter",
    "C84_destroyed_filters_leave_their_callbacks",
    "C84_order_is_independent_of_others_refuted",
    "C84_one_bad_stamp_starves_all_filters_refuted"
   ],
   "note": "Each public call is one atomic step (threads within one filter: C80). The two _refuted theorems show what is not independent of the other filters."
  },
  {
   "property": "C85",
   "status": "proved",
   "theorems": [
    "C85_pose_accuracy",
    "C85_transform_accuracy",
    "C85_message_round_trip",
    "C85_pose_carried",
    "C85_pose_through_lookup",
    "C85_fixed_frame_accuracy"
   ],
   "note": "IEEE 754 binary64, round to nearest even, no fused multiply-add; square root correctly rounded."
  },
  {
   "property": "C86",
   "status": "proved",
   "theorems": [
    "C86_nested_calls_are_a_history",
    "C86_notified_at_most_once",
    "C86_every_notification_is_made",
    "C86_listener_told_once_per_transform",
    "C86_told_at_most_once_per_transform",
    "C86_order",
    "C86_dangling_only_after_removal",
    "C86_no_dangling_without_removal",
    "C86_remove_inside_callback_refuted",
    "C86_exception_in_callback_refuted",
    "C86_clear_not_signalled"
   ],
   "note": "One thread. The use of removed callbacks and the effect of throwing callbacks are stated as the code has them (C86_..._refuted are the witnesses)."
  },
  {
   "property": "C87",
   "status": "proved",
   "theorems": [
    "C87_only_what_was_broadcast",
    "C87_same_receipts_same_answers",
    "C87_caught_up_nodes_agree",
    "C87_contradicting_publishers_refuted",
    "C87_clock_jump_refuted"
   ],
   "note": "The agreement theorems assume consistent publishers and clocks that do not jump back; the _refuted theorems show both are needed. The answer to lookupTransform may differ in the frame named in the error text of a loop (same_answer)."
  },
  {
   "property": "C88",
   "status": "proved",
   "theorems": [
    "C88_buffer_is_what_the_calls_made_it",
    "C88_each_listener_does_what_it_owes",
    "C88_messages_are_taken_in_order",
    "C88_no_message_is_skipped",
    "C88_nothing_after_the_destructor",
    "C88_destructor_returns",
    "C88_who_decides_about_waiting",
    "C88_how_many_listeners_does_not_matter",
    "C88_one_listener",
    "C88_waiting_outlives_the_listener_refuted",
    "C88_second_listener_clears_new_data_refuted"
   ],
   "note": "Assumes in-range stamps and clock readings less than 68 years apart where exceptions matter (calm). roscpp is represented by queues from which messages may get lost; callAvailable() handles the messages queued when it is called; the 10 ms poll is not timed."
  },
  {
   "property": "C89",
   "status": "proved",
   "theorems": [
    "C89_one_link",
    "C89_lookup_moves_points_slowly",
    "C89_lookup_turns_slowly",
    "C89_quaternion_numbers_jump_refuted"
   ],
   "note": "Over the real numbers; what binary64 adds is bounded in C67 and C68. The frames on the path keep one parent in the stored samples, and the lookups at both times pass the same frames."
  },
  {
   "property": "C90",
   "status": "proved",
   "theorems": [
    "C90_one_frame",
    "C90_all_frames",
    "C90_any_traffic",
    "C90_number_of_frames",
    "C90_clear",
    "C90_pending_requests_refuted",
    "C90_clear_keeps_requests"
   ],
   "note": "Counts samples, frames and requests, not bytes of the allocator. That requests are unbounded is C90_pending_requests_refuted."
  },
  {
   "property": "C91",
   "status": "proved",
   "theorems": [
    "C91_balance",
    "C91_messages_are_read",
    "C91_only_messages_are_read",
    "C91_none_means_taken",
    "C91_null_means_error",
    "C91_balance_refuted",
    "C91_returned_messages",
    "C91_returned_lists"
   ],
   "note": "That calls are balanced is refuted (C91_balance_refuted); what CPython functions do is the assumption stated in PyRefs.v."
  },
  {
   "property": "C92",
   "status": "proved",
   "theorems": [
    "C92_wrench_accuracy",
    "C92_covariance_accuracy",
    "C92_nearly_symmetric",
    "C92_exact_symmetry_refuted"
   ],
   "note": "That the transform of a symmetric covariance is symmetric is refuted (C92_exact_symmetry_refuted)."
  },
  {
   "property": "C93",
   "status": "proved",
   "theorems": [
    "C93_cloud_accuracy",
    "C93_invalid_points_stay_invalid",
    "C93_identity_is_exact"
   ],
   "note": "Sums in the order written in the model; Eigen's vectorised order and fused multiply-add are not modelled. A NaN is written with the default payload."
  },
  {
   "property": "C94",
   "status": "proved",
   "theorems": [
    "C94_no_answer_older_than_the_question",
    "C94_only_what_was_broadcast",
    "C94_both_legs_were_broadcast"
   ],
   "note": "actionlib and the topic transport enter as 'served' (C50) and as arbitrary deliveries (C87)."
  },
  {
   "property": "C95",
   "status": "proved",
   "theorems": [
    "C95_any_buffer_fed_by_broadcasts",
    "C95_ready_means_transformable_by_broadcasts",
    "C95_queued_callback_refuted"
   ],
   "note": "With a callback queue the guarantee fails (C95_queued_callback_refuted); frame names with several leading slashes are excluded."
  },
  {
   "property": "C96",
   "status": "proved",
   "theorems": [
    "C96_buffer_size_is_kept",
    "C96_too_long_is_refused",
    "C96_defaults",
    "C96_negative_size_refuted",
    "C96_clients_are_told_what_was_broadcast"
   ],
   "note": "That the program refuses a negative size is refuted (C96_negative_size_refuted). ros::Duration(double) and NodeHandle::param are dependencies; ServerMain.v states what is assumed of them. NaN and infinite sizes are undefined behaviour (UB in the model)."
  },
  {
   "property": "C97",
   "status": "proved",
   "theorems": [
    "C97_select",
    "C97_select_total_refuted",
    "C97_byte_order",
    "C97_axes",
    "C97_scalar_functions",
    "C97_greater_equal_refuted",
    "C97_atan2_fast",
    "C97_serialization"
   ],
   "note": "That tf2Select is total and that tf2GreaterEqual is >= are refuted (C97_select_total_refuted, C97_greater_equal_refuted). Byte order: a little-endian machine with 4-byte floats and 8-byte doubles. The scalar and axis functions are over the real numbers; serialization is over binary64/binary32."
  },
  {
   "property": "C98",
   "status": "proved",
   "theorems": [
    "C98_same_for_every_type",
    "C98_rotation",
    "C98_planar",
    "C98_length",
    "C98_identity"
   ],
   "note": "The first theorem holds over every arithmetic (so also doubles), the angles are over the reals, the identity over binary64 for every libm."
  },
  {
   "property": "C99",
   "status": "proved",
   "theorems": [
    "C99_the_first_buffer_serves",
    "C99_replies_come_from_a_living_buffer",
    "C99_nobody_takes_over",
    "C99_constructors_in_sequence_do_not_raise",
    "C99_example",
    "C99_always_offered_refuted",
    "C99_discarded_buffer_answers_refuted",
    "C99_constructor_can_raise_refuted"
   ],
   "note": "Assumes of roscpp and rospy (not in /repo): one server per name and node; a second advertise fails (C++: empty handle, Python: ServiceException); roscpp shuts a service down with its handle, rospy keeps it. Witnesses of what is refuted: the _refuted theorems."
  },
  {
   "property": "C100",
   "status": "proved",
   "theorems": [
    "C100_exact",
    "C100_vectors",
    "C100_axes",
    "C100_clamp",
    "C100_acos_and_asin_in_domain",
    "C100_nan",
    "C100_clamped_is_within_bounds_refuted",
    "C100_min_is_symmetric_refuted",
    "C100_example"
   ],
   "note": "Over binary64 for every libm. What acos and asin return is libm's. The _refuted theorems show what NaN breaks."
  }
 ]
}