{
 "claims": [
  {
   "property": "C01",
   "status": "proved",
   "theorems": [
    "C01_decode_never_returns_wrong_bits",
    "C01_encode_decode_roundtrip",
    "C01_session_roundtrip",
    "C01_roundtrip_refuted"
   ],
   "note": "in Fec_Props.v."
  },
  {
   "property": "C02",
   "status": "proved",
   "theorems": [
    "C02_requested_length_is_met",
    "C02_no_truncation",
    "C02_zero_length_refuted"
   ],
   "note": "in Fec_Props.v."
  },
  {
   "property": "C03",
   "status": "proved",
   "theorems": [
    "C03_repetition_corrects_exactly_minorities",
    "C03_repetition_roundtrip"
   ],
   "note": "in Fec_Props.v."
  },
  {
   "property": "C04",
   "status": "proved",
   "theorems": [
    "C04_interleaver_is_a_lossless_permutation",
    "C04_deinterleaver_is_injective",
    "C04_documented_formula_refuted"
   ],
   "note": "in Fec_Props.v."
  },
  {
   "property": "C05",
   "status": "proved",
   "theorems": [
    "C05_crc_roundtrip",
    "C05_zero_check_bits_refuted"
   ],
   "note": "in Fec_Props.v."
  },
  {
   "property": "C06",
   "status": "proved",
   "theorems": [
    "C06_3gpp_scrambling_is_transparent",
    "C06_3gpp_same_object"
   ],
   "note": "in Fec_Props.v."
  },
  {
   "property": "C07",
   "status": "proved",
   "theorems": [
    "C07_80211a_equal_registers_are_transparent",
    "C07_80211a_same_object_refuted"
   ],
   "note": "in Fec_Props.v."
  },
  {
   "property": "C08",
   "status": "proved",
   "theorems": [
    "C08_work_is_bounded_and_respects_disabling",
    "C08_empty_batch_means_all_work_handed_out",
    "C08_queue_runs_dry"
   ],
   "note": "in Monte_Props.v."
  },
  {
   "property": "C09",
   "status": "proved",
   "theorems": [
    "C09_estimates_are_section_means",
    "C09_section_stops_iff_some_evaluator_is_confident",
    "C09_no_stop_before_the_minimum",
    "C09_zero_tolerance_never_stops",
    "C09_constant_samples_never_stop",
    "C09_all_evaluators_confident_refuted",
    "C09_settings_are_validated"
   ],
   "note": "in MonteResult_Props.v."
  },
  {
   "property": "C10",
   "status": "proved",
   "theorems": [
    "C10_cached_stages_are_up_to_date"
   ],
   "note": "in Monte_Props.v."
  },
  {
   "property": "C11",
   "status": "proved",
   "theorems": [
    "C11_sorted_dimensions_are_attributed_correctly",
    "C11_sections_index_the_sorted_dimensions",
    "C11_attribution_refuted",
    "C11_valid_section_rejected_refuted"
   ],
   "note": "in Monte_Props.v."
  },
  {
   "property": "C12",
   "status": "proved",
   "theorems": [
    "C12_graphs_survive",
    "C12_shared_exactly_if_same",
    "C12_values_survive",
    "C12_cycles_refuted",
    "C12_order_refuted",
    "C12_reused_identifiers_refuted"
   ],
   "note": "in Ser_Props.v."
  },
  {
   "property": "C13",
   "status": "proved",
   "theorems": [
    "C13_scalars",
    "C13_integer_range",
    "C13_arrays",
    "C13_reserved_names_refuted"
   ],
   "note": "in Ser_Props.v."
  },
  {
   "property": "C14",
   "status": "proved",
   "theorems": [
    "C14_supported_orders",
    "C14_whole_symbols_are_mapped",
    "C14_hard_detection_finds_nearest_symbols",
    "C14_labels_are_distinct",
    "C14_custom_labels_are_distinct",
    "C14_detection_inverts_mapping",
    "C14_detection_tolerates_noise",
    "C14_single_points_carry_no_bits"
   ],
   "note": "in Qam_Props.v."
  },
  {
   "property": "C15",
   "status": "proved",
   "theorems": [
    "C15_neighbours_differ_in_one_bit"
   ],
   "note": "in Qam_Props.v."
  },
  {
   "property": "C16",
   "status": "proved",
   "theorems": [
    "C16_soft_outputs_are_max_log",
    "C16_hard_decisions_are_signs",
    "C16_tables_have_no_soft_outputs"
   ],
   "note": "in Qam_Props.v."
  },
  {
   "property": "C17",
   "status": "proved",
   "theorems": [
    "C17_pick_inverts_place",
    "C17_grid_contents",
    "C17_references_follow_the_pilot_sequence"
   ],
   "note": "in Grid_Props.v."
  },
  {
   "property": "C18",
   "status": "proved",
   "theorems": [
    "C18_place_accepts_the_advertised_number",
    "C18_advertised_counts_are_the_mask",
    "C18_all_references_advertised_refuted",
    "C18_samples_per_frame",
    "C18_framing_is_lossless"
   ],
   "note": "in Grid_Props.v."
  },
  {
   "property": "C19",
   "status": "proved",
   "theorems": [
    "C19_ofdm_demodulation_inverts_modulation",
    "C19_offset_rotates_phases",
    "C19_sample_offset_inside_the_prefix",
    "C19_offset_with_dc_suppression",
    "C19_offset_with_dc_suppression_refuted",
    "C19_offset_of_a_later_section_refuted"
   ],
   "note": "in Ofdm_Props.v."
  },
  {
   "property": "C20",
   "status": "proved",
   "theorems": [
    "C20_otfs_backward_inverts_forward",
    "C20_ocdm_backward_inverts_forward",
    "C20_otfs_demodulation_inverts_modulation",
    "C20_ocdm_demodulation_inverts_modulation",
    "C20_dft_precoding_is_invertible"
   ],
   "note": "in Ofdm_Props.v."
  },
  {
   "property": "C21",
   "status": "proved",
   "theorems": [
    "C21_alamouti_recovers_the_symbols",
    "C21_invalid_configurations_are_rejected"
   ],
   "note": "in Precode_Props.v."
  },
  {
   "property": "C22",
   "status": "proved",
   "theorems": [
    "C22_ganesan_recovers_the_symbols",
    "C22_ganesan_over_any_distinguishing_channel",
    "C22_invalid_configurations_are_rejected"
   ],
   "note": "in Precode_Props.v."
  },
  {
   "property": "C23",
   "status": "proved",
   "theorems": [
    "C23_mrc_returns_the_symbols",
    "C23_mrc_requires_one_transmit_stream",
    "C23_mrc_then_zero_forcing",
    "C23_mrc_then_zero_forcing_refuted"
   ],
   "note": "in Precode_Props.v."
  },
  {
   "property": "C24",
   "status": "proved",
   "theorems": [
    "C24_chains_are_undone_in_reverse_order",
    "C24_dft_and_alamouti_over_a_channel",
    "C24_same_order_refuted",
    "C24_stream_counts_are_consistent",
    "C24_unchecked_stream_count_refuted",
    "C24_infeasible_requests_are_rejected",
    "C24_encoded_block_count",
    "C24_decoded_block_count_refuted",
    "C24_decoded_block_count"
   ],
   "note": "in Precode_Props.v."
  },
  {
   "property": "C25",
   "status": "proved",
   "theorems": [
    "C25_setting_a_coder",
    "C25_setting_beyond_the_end",
    "C25_removing_a_coder",
    "C25_lists_are_applied_in_reverse",
    "C25_listed_order_refuted",
    "C25_reloading_reverses_the_chain",
    "C25_coding_objects_loop_forever",
    "C25_manager_encoders_are_duplicated",
    "C25_empty_managers_and_lists_are_kept",
    "C25_manager_kept_refuted"
   ],
   "note": "in Precode_Props.v."
  },
  {
   "property": "C26",
   "status": "proved",
   "theorems": [
    "C26_number_of_frames",
    "C26_frames_partition_bits",
    "C26_frame_positions",
    "C26_default_synchronization",
    "C26_padding_past_the_end",
    "C26_blocks_independent",
    "C26_round_trip_sparse",
    "C26_round_trip_dense",
    "C26_frame_across_blocks_refuted"
   ],
   "note": "in Frames_Props.v."
  },
  {
   "property": "C27",
   "status": "proved",
   "theorems": [
    "C27_error_positions",
    "C27_rate_is_hamming_distance",
    "C27_symmetric",
    "C27_zero_iff",
    "C27_zero_iff_equal",
    "C27_missing_bits",
    "C27_triangle"
   ],
   "note": "in Eval_Props.v."
  },
  {
   "property": "C28",
   "status": "proved",
   "theorems": [
    "C28_block_errors",
    "C28_different_block_counts_raise",
    "C28_single_block_is_broadcast",
    "C28_missing_blocks_are_errors_refuted"
   ],
   "note": "in Eval_Props.v."
  },
  {
   "property": "C29",
   "status": "proved",
   "theorems": [
    "C29_frame_errors",
    "C29_different_lengths",
    "C29_single_bit",
    "C29_frame_error_iff_different_refuted",
    "C29_throughput",
    "C29_no_reception"
   ],
   "note": "in Eval_Props.v."
  },
  {
   "property": "C30",
   "status": "proved",
   "theorems": [
    "C30_connect_is_atomic",
    "C30_all_requested_wires_are_recorded",
    "C30_open_blocks_face_the_antennas",
    "C30_second_call_keeps_earlier_wires_refuted",
    "C30_connected_ports_are_rejected_refuted",
    "C30_missing_input_ports_are_rejected_refuted"
   ],
   "note": "in Rf_Props.v."
  },
  {
   "property": "C31",
   "status": "proved",
   "theorems": [
    "C31_transmit_evaluates_the_graph",
    "C31_receive_evaluates_the_graph",
    "C31_double_feed_is_harmless_refuted"
   ],
   "note": "in Rf_Props.v."
  },
  {
   "property": "C32",
   "status": "proved",
   "theorems": [
    "C32_error_half_step",
    "C32_step",
    "C32_clipping",
    "C32_idempotent",
    "C32_number_of_bits",
    "C32_no_quantization"
   ],
   "note": "in Adc_Props.v."
  },
  {
   "property": "C33",
   "status": "proved",
   "theorems": [
    "C33_monotone",
    "C33_mid_riser_levels",
    "C33_mid_tread_levels",
    "C33_mid_tread_resolution_refuted",
    "C33_odd",
    "C33_thresholds"
   ],
   "note": "in Adc_Props.v."
  },
  {
   "property": "C34",
   "status": "proved",
   "theorems": [
    "C34_parameters_positive",
    "C34_peak_amplitude",
    "C34_within_full_scale",
    "C34_zero_signal",
    "C34_empty_signal_raises",
    "C34_transparent",
    "C34_conversion_error",
    "C34_rms_single_stream",
    "C34_rms_several_streams_refuted"
   ],
   "note": "in Adc_Props.v."
  },
  {
   "property": "C35",
   "status": "proved",
   "theorems": [
    "C35_conversion_round_trip",
    "C35_power_and_amplitude",
    "C35_monotone",
    "C35_creation",
    "C35_sums",
    "C35_products",
    "C35_pickling"
   ],
   "note": "in Log_Props.v."
  },
  {
   "property": "C36",
   "status": "proved",
   "theorems": [
    "C36_cube_creation",
    "C36_cube_mismatch",
    "C36_point_geometry",
    "C36_threshold_detector",
    "C36_peaks_keep_the_strongest",
    "C36_threshold_monotone",
    "C36_normalised_detection_ignores_gain",
    "C36_flat_cubes_find_nothing",
    "C36_negative_cells_refuted",
    "C36_max_detector",
    "C36_max_detector_position_refuted",
    "C36_max_detector_agrees_for_equal_angles",
    "C36_normalised_cube"
   ],
   "note": "in Radar_Props.v."
  },
  {
   "property": "C37",
   "status": "proved",
   "theorems": [
    "C37_decision",
    "C37_training_cells",
    "C37_decision_depends_on_training_cells",
    "C37_decision_ignores_gain",
    "C37_false_alarms_monotone",
    "C37_flat_cubes_find_nothing",
    "C37_detector"
   ],
   "note": "in Radar_Props.v."
  },
  {
   "property": "C38",
   "status": "proved",
   "theorems": [
    "C38_routines_report_their_waveform",
    "C38_equalizers_report_their_waveform",
    "C38_effect_of_an_assignment",
    "C38_failed_assignment_changes_nothing_refuted",
    "C38_detaching_a_stale_estimator_is_harmless_refuted"
   ],
   "note": "in Attach_Props.v."
  },
  {
   "property": "C39",
   "status": "proved",
   "theorems": [
    "C39_dense_form_of_a_sparse_signal",
    "C39_sparse_form_of_a_matrix",
    "C39_matrix_round_trip",
    "C39_round_trip_of_cancelling_columns_refuted",
    "C39_silence_keeps_its_streams_refuted"
   ],
   "note": "in Signal_Props.v."
  },
  {
   "property": "C40",
   "status": "proved",
   "theorems": [
    "C40_sparse_superposition_adds",
    "C40_dense_superposition_adds",
    "C40_late_signals_onto_dense_refuted",
    "C40_added_signal_is_unchanged_refuted",
    "C40_stream_selection_is_honoured_refuted"
   ],
   "note": "in Signal_Props.v."
  },
  {
   "property": "C41",
   "status": "proved",
   "theorems": [
    "C41_samples_appended_to_sparse",
    "C41_samples_appended_to_dense",
    "C41_sparse_rejects_other_stream_counts",
    "C41_dense_rejects_other_stream_counts_refuted",
    "C41_streams_appended_to_dense",
    "C41_streams_appended_to_sparse",
    "C41_sparse_streams_are_accepted",
    "C41_sparse_streams_always_accepted_refuted"
   ],
   "note": "in Signal_Props.v."
  },
  {
   "property": "C42",
   "status": "proved",
   "theorems": [
    "C42_slices_select_instants",
    "C42_small_steps_are_always_aligned",
    "C42_all_steps_refuted",
    "C42_negative_bounds_refuted"
   ],
   "note": "in Signal_Props.v."
  },
  {
   "property": "C43",
   "status": "proved",
   "theorems": [
    "C43_nodes_draw_from_their_mother",
    "C43_draws_succeed_without_cycles",
    "C43_cyclic_mothers_are_rejected_refuted",
    "C43_seed_determines_the_stream",
    "C43_equal_seeds_and_histories_draw_equal_numbers",
    "C43_constructor_mother_refuted"
   ],
   "note": "in Core_Props.v."
  },
  {
   "property": "C44",
   "status": "proved",
   "theorems": [
    "C44_every_registered_hook_is_notified_once",
    "C44_remove_detaches_everywhere_refuted",
    "C44_registration_during_notification_aborts_it"
   ],
   "note": "in Core_Props.v."
  },
  {
   "property": "C45",
   "status": "proved",
   "theorems": [
    "C45_execution_order_is_a_stable_sort"
   ],
   "note": "in Fec_Props.v."
  },
  {
   "property": "C46",
   "status": "proved",
   "theorems": [
    "C46_required_data_bits_fill_the_code",
    "C46_required_bits_refuted"
   ],
   "note": "in Fec_Props.v."
  },
  {
   "property": "C47",
   "status": "proved",
   "theorems": [
    "C47_progress_of_one_dimensional_grids",
    "C47_two_dimensional_progress_refuted",
    "C47_progress_query_raises_refuted"
   ],
   "note": "in Monte_Props.v."
  },
  {
   "property": "C48",
   "status": "proved",
   "theorems": [
    "C48_first_section_yields_all_argument_combinations",
    "C48_equal_contribution_refuted"
   ],
   "note": "in Monte_Props.v."
  },
  {
   "property": "C49",
   "status": "proved",
   "theorems": [
    "C49_no_double_counting_while_running",
    "C49_nothing_is_lost_without_overlap",
    "C49_counted_twice_refuted",
    "C49_lost_batch_refuted",
    "C49_late_batch_dropped_refuted"
   ],
   "note": "in MonteResult_Props.v."
  },
  {
   "property": "C50",
   "status": "proved",
   "theorems": [
    "C50_generator_follows_its_recurrences",
    "C50_reset_replays",
    "C50_3gpp_gold_sequence_refuted"
   ],
   "note": "in Fec_Props.v."
  },
  {
   "property": "C51",
   "status": "proved",
   "theorems": [
    "C51_zero_forcing_inverts_the_channel",
    "C51_zero_forcing_on_one_antenna"
   ],
   "note": "in Precode_Props.v."
  },
  {
   "property": "C52",
   "status": "proved",
   "theorems": [
    "C52_the_strongest_antenna_is_selected",
    "C52_zero_forcing_after_selection",
    "C52_more_than_two_transmit_streams_raise"
   ],
   "note": "in Precode_Props.v."
  },
  {
   "property": "C53",
   "status": "proved",
   "theorems": [
    "C53_transmission_timestamp",
    "C53_reception_timestamp_scale",
    "C53_reception_timestamp_correct_iff",
    "C53_reception_timestamp_refuted"
   ],
   "note": "in Frames_Props.v."
  },
  {
   "property": "C54",
   "status": "proved",
   "theorems": [
    "C54_streams_round_trip",
    "C54_uneven_bits_raise",
    "C54_symbols_of_frames"
   ],
   "note": "in Frames_Props.v."
  },
  {
   "property": "C55",
   "status": "proved",
   "theorems": [
    "C55_evm_is_root_mean_square",
    "C55_evm_zero_iff",
    "C55_evm_symmetric",
    "C55_evm_scales",
    "C55_missing_symbols_ignored"
   ],
   "note": "in Evm_Props.v."
  },
  {
   "property": "C56",
   "status": "proved",
   "theorems": [
    "C56_frames_are_converted_independently",
    "C56_single_frame",
    "C56_incomplete_frame_raises",
    "C56_empty_frames_lose_the_signal"
   ],
   "note": "in Adc_Props.v."
  },
  {
   "property": "C57",
   "status": "proved",
   "theorems": [
    "C57_power_sequences",
    "C57_power_sequence_decibels",
    "C57_amplitude_sequences_report_half",
    "C57_amplitude_sequences_refuted",
    "C57_derived_sequences",
    "C57_assignment",
    "C57_not_positive_unreadable",
    "C57_in_place_arithmetic_refuted",
    "C57_pickling_powers"
   ],
   "note": "in Log_Props.v."
  },
  {
   "property": "C58",
   "status": "proved",
   "theorems": [
    "C58_mapping_is_listed_by_label",
    "C58_unit_mean_energy",
    "C58_custom_points_are_scaled"
   ],
   "note": "in Qam_Props.v."
  },
  {
   "property": "C59",
   "status": "proved",
   "theorems": [
    "C59_drops_are_replayed",
    "C59_whole_campaigns_are_replayed",
    "C59_first_state_is_restored",
    "C59_reserved_campaign_refuted"
   ],
   "note": "in Rec_Props.v."
  },
  {
   "property": "C60",
   "status": "proved",
   "theorems": [
    "C60_caches_are_transparent",
    "C60_transformation_is_determined",
    "C60_local_coordinates",
    "C60_lookat_refuted",
    "C60_lookat_repaired",
    "C60_cycle_refuted"
   ],
   "note": "in Kin_Props.v."
  },
  {
   "property": "C61",
   "status": "proved",
   "theorems": [
    "C61_rigid",
    "C61_group",
    "C61_positions",
    "C61_isometry",
    "C61_directions",
    "C61_plane_refuted"
   ],
   "note": "in Rot_Props.v."
  },
  {
   "property": "C62",
   "status": "proved",
   "theorems": [
    "C62_angles_describe_the_rotation",
    "C62_angles_are_read_back",
    "C62_gimbal_lock_refuted",
    "C62_quaternion_scaling",
    "C62_quaternion_reading_refuted"
   ],
   "note": "in Rot_Props.v."
  },
  {
   "property": "C63",
   "status": "proved",
   "theorems": [
    "C63_spherical_coordinates",
    "C63_lookat",
    "C63_lookat_upwards_refuted"
   ],
   "note": "in Rot_Props.v."
  },
  {
   "property": "C64",
   "status": "proved",
   "theorems": [
    "C64_field_turns_with_the_antenna",
    "C64_power_is_kept",
    "C64_ideal_and_linear_radiate_everywhere",
    "C64_power_is_bounded",
    "C64_direction_frames_agree",
    "C64_location_and_direction_agree",
    "C64_location_frames_agree_if_not_turned",
    "C64_location_frames_agree_refuted"
   ],
   "note": "in Ant_Props.v."
  },
  {
   "property": "C65",
   "status": "proved",
   "theorems": [
    "C65_requests_follow_the_modes",
    "C65_topology_is_relative",
    "C65_phases_follow_the_distances",
    "C65_position_frames_agree",
    "C65_responses_have_unit_modulus",
    "C65_horizontal_is_spherical",
    "C65_far_field",
    "C65_subarrays"
   ],
   "note": "in Ant_Props.v."
  },
  {
   "property": "C66",
   "status": "proved",
   "theorems": [
    "C66_history_of_a_uniform_array",
    "C66_antennas_are_counted",
    "C66_antennas_are_counted_refuted"
   ],
   "note": "in Ant_Props.v."
  },
  {
   "property": "C67",
   "status": "proved",
   "theorems": [
    "C67_conventional_receives_the_focus",
    "C67_conventional_receives_scene_angles",
    "C67_conventional_amplifies_no_direction",
    "C67_conventional_transmits_towards_the_focus",
    "C67_conventional_receives_the_focus_refuted",
    "C67_wrong_requests_are_refused"
   ],
   "note": "in Beam_Props.v."
  },
  {
   "property": "C68",
   "status": "proved",
   "theorems": [
    "C68_capon_minimises_power",
    "C68_capon_is_distortionless",
    "C68_wrong_requests_are_refused"
   ],
   "note": "in Beam_Props.v."
  },
  {
   "property": "C69",
   "status": "proved",
   "theorems": [
    "C69_null_steering_transmits_nothing_to_the_nulls",
    "C69_null_steering_receives_nothing_from_the_nulls",
    "C69_null_steering_needs_receiving_antennas",
    "C69_null_steering_serves_the_focus_refuted",
    "C69_wrong_requests_are_refused"
   ],
   "note": "in Beam_Props.v."
  },
  {
   "property": "C70",
   "status": "proved",
   "theorems": [
    "C70_ideal_state_describes_propagation",
    "C70_delay_state_describes_propagation",
    "C70_fading_state_describes_propagation",
    "C70_fading_state_is_truncated",
    "C70_states_can_be_requested_refuted",
    "C70_states_count_receiving_antennas_refuted"
   ],
   "note": "in Chan_Props.v."
  },
  {
   "property": "C71",
   "status": "proved",
   "theorems": [
    "C71_ideal_propagation_is_linear_and_causal",
    "C71_delay_propagation_is_linear_and_causal",
    "C71_fading_propagation_is_linear_and_causal",
    "C71_state_propagation_is_linear_and_causal",
    "C71_delays_are_kept"
   ],
   "note": "in Chan_Props.v."
  },
  {
   "property": "C72",
   "status": "proved",
   "theorems": [
    "C72_ideal_propagation_is_blockwise",
    "C72_delay_propagation_is_blockwise",
    "C72_fading_propagation_is_blockwise",
    "C72_single_block",
    "C72_zero_scale",
    "C72_blockwise_without_gaps_refuted",
    "C72_blockwise_in_motion_refuted"
   ],
   "note": "in Chan_Props.v."
  },
  {
   "property": "C73",
   "status": "proved",
   "theorems": [
    "C73_impulse_round_trip",
    "C73_frequency_round_trip",
    "C73_conversions_keep_all_samples_refuted",
    "C73_linear_is_propagation",
    "C73_linear_frequency",
    "C73_linear_several_transmitters_refuted",
    "C73_ideal_channels_are_reciprocal",
    "C73_delay_channels_are_reciprocal",
    "C73_fading_channels_are_reciprocal",
    "C73_states_are_reciprocal"
   ],
   "note": "in Chan_Props.v."
  },
  {
   "property": "C74",
   "status": "proved",
   "theorems": [
    "C74_ideal_propagation_keeps_its_argument",
    "C74_lossless_propagation_keeps_its_argument",
    "C74_propagation_is_repeatable_refuted",
    "C74_rice_gains",
    "C74_infinite_rice_factor",
    "C74_peak_amplitude"
   ],
   "note": "in Chan_Props.v."
  },
  {
   "property": "C75",
   "status": "proved",
   "theorems": [
    "C75_devices",
    "C75_adding_a_device",
    "C75_rejected_devices",
    "C75_rejected_device_stays_refuted",
    "C75_setting_a_channel",
    "C75_unknown_devices",
    "C75_default_channel",
    "C75_channels_of_a_device",
    "C75_active_channels_refuted"
   ],
   "note": "in Net_Props.v."
  },
  {
   "property": "C76",
   "status": "proved",
   "theorems": [
    "C76_channels",
    "C76_channels_in_use",
    "C76_channels_in_use_refuted",
    "C76_propagation",
    "C76_propagation_with_a_replaced_default_channel",
    "C76_propagation_over_ideal_channels_refuted",
    "C76_explicit_channels_belong_to_the_scenario",
    "C76_all_channels_belong_to_the_scenario_refuted"
   ],
   "note": "in Net_Props.v."
  },
  {
   "property": "C77",
   "status": "proved",
   "theorems": [
    "C77_trigger_groups",
    "C77_assigned_trigger",
    "C77_removed_device_refuted",
    "C77_trigger_realizations",
    "C77_offsets",
    "C77_rejected_offsets",
    "C77_offset_at_the_original_rate",
    "C77_offset_in_double_precision_refuted"
   ],
   "note": "in Net_Props.v."
  },
  {
   "property": "C78",
   "status": "proved",
   "theorems": [
    "C78_requests_are_checked",
    "C78_perfect_isolation_leaks_nothing",
    "C78_specific_isolation",
    "C78_isolation_is_a_power_ratio",
    "C78_not_positive_isolations",
    "C78_unspecified_isolation",
    "C78_invalid_isolations",
    "C78_cleared_isolations_stop_leaking_refuted",
    "C78_selective_leakage",
    "C78_selective_streams_refuted"
   ],
   "note": "in Iso_Props.v."
  },
  {
   "property": "C79",
   "status": "proved",
   "theorems": [
    "C79_streams_are_checked",
    "C79_perfect_coupling",
    "C79_only_square_matrices",
    "C79_transmitted_streams",
    "C79_default_transmission_of_one_antenna",
    "C79_default_transmission_refuted",
    "C79_default_reception",
    "C79_receive_impedance_scales"
   ],
   "note": "in Iso_Props.v."
  },
  {
   "property": "C80",
   "status": "proved",
   "theorems": [
    "C80_emerging_superposition",
    "C80_transmissions_kept",
    "C80_transmissions_unchanged_refuted",
    "C80_separate_operators",
    "C80_numbers_checked",
    "C80_separate_operators_must_transmit",
    "C80_first_selection_is_ignored",
    "C80_selected_ports_need_streams",
    "C80_selected_ports",
    "C80_selected_streams",
    "C80_port_selection_refuted",
    "C80_excess_streams_are_dropped"
   ],
   "note": "in Dev_Props.v."
  },
  {
   "property": "C81",
   "status": "proved",
   "theorems": [
    "C81_reception",
    "C81_continuous_reception",
    "C81_leakage_is_added",
    "C81_signals_with_a_gap_raise",
    "C81_reception_refuted",
    "C81_nothing_impinging"
   ],
   "note": "in Dev_Props.v."
  },
  {
   "property": "C82",
   "status": "proved",
   "theorems": [
    "C82_parameters",
    "C82_ports",
    "C82_linear",
    "C82_clipping",
    "C82_rapp",
    "C82_saleh",
    "C82_saleh_monotone_refuted",
    "C82_saleh_finite_refuted",
    "C82_custom",
    "C82_custom_lengths_refuted",
    "C82_custom_mismatch_raises",
    "C82_rotation",
    "C82_memory_polynomial_refuted"
   ],
   "note": "in Amp_Props.v."
  },
  {
   "property": "C83",
   "status": "proved",
   "theorems": [
    "C83_mixer_up",
    "C83_mixer_down",
    "C83_up_down",
    "C83_ideal_mixer",
    "C83_ideal_up_down",
    "C83_ideal_down_up",
    "C83_ideal_mirror_refuted",
    "C83_x4",
    "C83_attribute_refuted"
   ],
   "note": "in Blk_Props.v."
  },
  {
   "property": "C84",
   "status": "proved",
   "theorems": [
    "C84_sum",
    "C84_sum_frequencies_refuted",
    "C84_split",
    "C84_split_copies_refuted",
    "C84_shift",
    "C84_shift_quantization_refuted",
    "C84_source",
    "C84_ramp",
    "C84_falling_ramp_silent",
    "C84_falling_ramp_refuted"
   ],
   "note": "in Blk_Props.v."
  },
  {
   "property": "C85",
   "status": "proved",
   "theorems": [
    "C85_levels",
    "C85_snr",
    "C85_noise",
    "C85_noise_cancels",
    "C85_negative_power",
    "C85_noise_power_refuted",
    "C85_ports"
   ],
   "note": "in Blk_Props.v."
  },
  {
   "property": "C86",
   "status": "proved",
   "theorems": [
    "C86_positions_partition_frames",
    "C86_frames_hold_data_and_references",
    "C86_pick_inverts_place",
    "C86_wrong_number_of_symbols",
    "C86_wrong_number_of_symbols_refuted",
    "C86_pilot_symbols_are_periodic",
    "C86_pilot_symbols_are_not_repeated",
    "C86_pilot_sequence_kept_refuted"
   ],
   "note": "in Sc_Props.v."
  },
  {
   "property": "C87",
   "status": "proved",
   "theorems": [
    "C87_loopback_response",
    "C87_loopback_recovers_symbols_iff_nyquist",
    "C87_rectangular_pulses_are_recovered",
    "C87_fmcw_pulses_are_recovered",
    "C87_raised_cosine_pulses_are_recovered",
    "C87_raised_cosine_vanishes_at_other_symbols",
    "C87_raised_cosine_pulses_are_recovered_refuted",
    "C87_odd_filter_lengths_refuted",
    "C87_root_raised_cosine_refuted",
    "C87_samples_per_frame",
    "C87_fmcw_samples_per_frame",
    "C87_frame_duration",
    "C87_frame_duration_refuted",
    "C87_pilot_signal_starts_frames",
    "C87_pilot_signal_starts_frames_refuted"
   ],
   "note": "in Sc_Props.v."
  },
  {
   "property": "C88",
   "status": "proved",
   "theorems": [
    "C88_estimates_at_references",
    "C88_linear_channels_are_estimated",
    "C88_estimates_need_references",
    "C88_flat_channels_are_equalized"
   ],
   "note": "in Sc_Props.v."
  },
  {
   "property": "C89",
   "status": "proved",
   "theorems": [
    "C89_bits_survive_mapping",
    "C89_symbols_survive_unmapping",
    "C89_frames_are_sequences_of_chirps",
    "C89_silent_guard_refuted",
    "C89_detection_tolerates_noise",
    "C89_recovery_iff_distinct_chirps",
    "C89_default_chirps_are_distinct",
    "C89_chirps_are_distinct",
    "C89_chirps_are_distinct_refuted",
    "C89_frame_duration"
   ],
   "note": "in Cfsk_Props.v."
  },
  {
   "property": "C90",
   "status": "proved",
   "theorems": [
    "C90_frames_within_the_signal",
    "C90_short_signal",
    "C90_frames_do_not_overlap",
    "C90_exactly_the_correlated_frames",
    "C90_isolated_pilot",
    "C90_gain_does_not_matter",
    "C90_errors",
    "C90_settings_have_no_effect",
    "C90_settings_refuted",
    "C90_first_sample_refuted",
    "C90_short_signal_refuted",
    "C90_settings_are_checked"
   ],
   "note": "in Sync_Props.v."
  },
  {
   "property": "C91",
   "status": "proved",
   "theorems": [
    "C91_strongest_cell_of_an_echo",
    "C91_single_antenna",
    "C91_silence",
    "C91_range_axis",
    "C91_velocity_axis",
    "C91_latest_transmission",
    "C91_several_transmit_antennas",
    "C91_minimum_range_refuted",
    "C91_velocity_axis_refuted",
    "C91_several_transmit_antennas_refuted"
   ],
   "note": "in Mf_Props.v."
  },
  {
   "property": "C92",
   "status": "proved",
   "theorems": [
    "C92_energy",
    "C92_frame",
    "C92_frame_refuted",
    "C92_overlong_chirps_refuted",
    "C92_moving_scene",
    "C92_static_scene",
    "C92_range_cell",
    "C92_range_label",
    "C92_range_label_refuted",
    "C92_advertised_range",
    "C92_velocity_resolution_refuted",
    "C92_parameters",
    "C92_single_antenna",
    "C92_minimum_range"
   ],
   "note": "in Fmcw_Props.v."
  },
  {
   "property": "C93",
   "status": "proved",
   "theorems": [
    "C93_strongest_cell",
    "C93_static_objects_refuted",
    "C93_minimum_range_refuted",
    "C93_transmit_first",
    "C93_delayed_words_are_echoes"
   ],
   "note": "in Ofr_Props.v."
  },
  {
   "property": "C94",
   "status": "proved",
   "theorems": [
    "C94_delays",
    "C94_line_of_sight_is_first",
    "C94_target_velocity",
    "C94_interference_velocity",
    "C94_coinciding_ends",
    "C94_doppler_convention_refuted",
    "C94_monostatic",
    "C94_velocities_are_bounded",
    "C94_reciprocity",
    "C94_responses_are_reciprocal",
    "C94_radar_equation",
    "C94_free_space",
    "C94_own_echo"
   ],
   "note": "in Rch_Props.v."
  },
  {
   "property": "C95",
   "status": "proved",
   "theorems": [
    "C95_superposition",
    "C95_no_paths",
    "C95_ordinary_velocities",
    "C95_short_outputs_refuted",
    "C95_linearity",
    "C95_order_is_irrelevant",
    "C95_states",
    "C95_states_describe_propagation",
    "C95_null_hypothesis",
    "C95_later_null_hypothesis_refuted",
    "C95_interference_shapes",
    "C95_interference_refuted"
   ],
   "note": "in Rch_Props.v."
  },
  {
   "property": "C96",
   "status": "proved",
   "theorems": [
    "C96_accepted_configurations",
    "C96_single_target",
    "C96_velocity_vectors",
    "C96_missing_targets",
    "C96_range_from_the_receiver_refuted",
    "C96_zero_range",
    "C96_targets",
    "C96_collisions",
    "C96_collision_check_refuted",
    "C96_cross_section_directions_refuted",
    "C96_fixed_cross_sections",
    "C96_target_sets",
    "C96_realizations",
    "C96_realizations_flags",
    "C96_fixed_realizations_refuted"
   ],
   "note": "in Tgt_Props.v."
  },
  {
   "property": "C97",
   "status": "proved",
   "theorems": [
    "C97_slices",
    "C97_registered_again",
    "C97_shared_variables_refuted",
    "C97_reading",
    "C97_late_variables",
    "C97_static",
    "C97_bounded",
    "C97_consistency",
    "C97_reciprocity_refuted",
    "C97_zero_distance",
    "C97_radial_velocities",
    "C97_negative_distance"
   ],
   "note": "in Cons_Props.v."
  },
  {
   "property": "C98",
   "status": "proved",
   "theorems": [
    "C98_detection",
    "C98_values",
    "C98_curve",
    "C98_shape",
    "C98_dominance",
    "C98_invariance",
    "C98_separation",
    "C98_separation_refuted",
    "C98_scenarios",
    "C98_files",
    "C98_replayed_scenarios_refuted",
    "C98_thresholds_refuted",
    "C98_plot_refuted",
    "C98_rms",
    "C98_rms_scalar",
    "C98_rms_perfect_detection_refuted",
    "C98_rms_displaced_refuted"
   ],
   "note": "in Roc_Props.v."
  },
  {
   "property": "C99",
   "status": "proved",
   "theorems": [
    "C99_notified",
    "C99_late_hooks_refuted",
    "C99_realization",
    "C99_gain",
    "C99_devices",
    "C99_states",
    "C99_mixed",
    "C99_keywords_refuted",
    "C99_state_time_refuted",
    "C99_reciprocal_states",
    "C99_reciprocal_time_refuted",
    "C99_reciprocal_devices",
    "C99_propagated",
    "C99_relabelled_refuted",
    "C99_propagate"
   ],
   "note": "in Smp_Props.v."
  },
  {
   "property": "C100",
   "status": "proved",
   "theorems": [
    "C100_restored",
    "C100_unchanged",
    "C100_lost",
    "C100_stable",
    "C100_unregistered_refuted",
    "C100_evaluator_refuted",
    "C100_tdl_refuted",
    "C100_fading_realization_refuted",
    "C100_integer_delay_refuted",
    "C100_external_code_refuted",
    "C100_snr_reference_refuted"
   ],
   "note": "in Cfg_Props.v."
  },
  {
   "property": "C101",
   "status": "proved",
   "theorems": [
    "C101_setters_return",
    "C101_shown_calibrations_know_their_device",
    "C101_no_calibration_is_shared",
    "C101_assigning_moves",
    "C101_attaching_moves",
    "C101_repeated_assignments",
    "C101_replaced_calibrations_refuted",
    "C101_lost_calibrations_refuted"
   ],
   "note": "in Cal_Props.v."
  },
  {
   "property": "C102",
   "status": "proved",
   "theorems": [
    "C102_received_delays_are_removed",
    "C102_transmissions_are_postponed",
    "C102_other_directions",
    "C102_small_delays_refuted",
    "C102_estimates_are_exact",
    "C102_turned_pulses_refuted",
    "C102_stronger_ports_refuted",
    "C102_transmit_phases_are_aligned",
    "C102_receive_phases_are_aligned",
    "C102_inverted_references_refuted",
    "C102_weights_scale_ports",
    "C102_repeated_triggers_refuted"
   ],
   "note": "in Corr_Props.v."
  },
  {
   "property": "C103",
   "status": "proved",
   "theorems": [
    "C103_leakage_is_removed",
    "C103_other_signals",
    "C103_further_transmitters_refuted",
    "C103_unknown_transmitters_refuted",
    "C103_late_leakage_refuted",
    "C103_early_leakage_refuted",
    "C103_estimates_are_exact",
    "C103_calibrated_devices_hear_only_the_rest",
    "C103_refused_estimates",
    "C103_selected_ports_refuted",
    "C103_selected_receiver_refuted"
   ],
   "note": "in Leak_Props.v."
  },
  {
   "property": "C104",
   "status": "proved",
   "theorems": [
    "C104_profiles_checked",
    "C104_taps",
    "C104_los_angle_refuted",
    "C104_sinusoids_refuted",
    "C104_exponential",
    "C104_exponential_spread_refuted",
    "C104_exponential_power_refuted",
    "C104_tables",
    "C104_tdl",
    "C104_line_of_sight_refuted",
    "C104_standard_covariances",
    "C104_custom_covariances",
    "C104_correlation_refuted",
    "C104_antennas_refuted"
   ],
   "note": "in Fad_Props.v."
  },
  {
   "property": "C105",
   "status": "proved",
   "theorems": [
    "C105_noise_power",
    "C105_sparse",
    "C105_several_blocks_refuted",
    "C105_receivers_share",
    "C105_independent_refuted",
    "C105_decoded",
    "C105_reported_power_refuted",
    "C105_ideal_snr",
    "C105_ideal_streams_refuted",
    "C105_delay_snr",
    "C105_delay_snr_refuted",
    "C105_fading_energy",
    "C105_comm_levels",
    "C105_comm_refused",
    "C105_oversampling",
    "C105_es_n0_refuted"
   ],
   "note": "in Nz_Props.v."
  },
  {
   "property": "C106",
   "status": "proved",
   "theorems": [
    "C106_constants",
    "C106_magnitudes",
    "C106_silent",
    "C106_flicker_filter",
    "C106_variance",
    "C106_stationary_refuted"
   ],
   "note": "in Nz_Props.v."
  },
  {
   "property": "C107",
   "status": "proved",
   "theorems": [
    "C107_latest",
    "C107_targets",
    "C107_duplex_extraction_refuted",
    "C107_dense_power",
    "C107_no_samples",
    "C107_sparse_energy",
    "C107_energy_refuted",
    "C107_sparse_power",
    "C107_sparse_power_equal_blocks",
    "C107_sparse_power_refuted",
    "C107_representation_refuted",
    "C107_papr",
    "C107_papr_bounds",
    "C107_papr_scaling",
    "C107_papr_padding",
    "C107_papr_silent",
    "C107_papr_no_samples",
    "C107_papr_signal",
    "C107_papr_early",
    "C107_papr_early_refuted",
    "C107_stash",
    "C107_stash_refused",
    "C107_array",
    "C107_array_sparse"
   ],
   "note": "in Pwr_Props.v."
  },
  {
   "property": "C108",
   "status": "proved",
   "theorems": [
    "C108_modes",
    "C108_drop_available",
    "C108_devices",
    "C108_devices_fixed",
    "C108_recording",
    "C108_recorded_number",
    "C108_campaign_refuted",
    "C108_timestamp_refuted",
    "C108_record_refused",
    "C108_reserved_campaign_refuted",
    "C108_default_drops",
    "C108_replay_only",
    "C108_replay_starts",
    "C108_replay_without_file",
    "C108_replay_campaign_refuted",
    "C108_replayed_drops",
    "C108_replay_notes",
    "C108_round_trip",
    "C108_rewind_refuted",
    "C108_num_drops_refuted",
    "C108_stop",
    "C108_append"
   ],
   "note": "in Scn_Props.v."
  },
  {
   "property": "C109",
   "status": "proved",
   "theorems": [
    "C109_same_place",
    "C109_offset",
    "C109_clusters",
    "C109_delay_values",
    "C109_delays",
    "C109_negative_delays_refuted",
    "C109_delay_scale_refuted",
    "C109_power_values",
    "C109_energy",
    "C109_decay",
    "C109_cutoff",
    "C109_cutoff_refuted",
    "C109_pairing",
    "C109_pairing_refuted",
    "C109_gain_refuted",
    "C109_oxygen_refuted",
    "C109_shadow_fading_refuted",
    "C109_angular_spread",
    "C109_angular_invariance",
    "C109_profile_refuted",
    "C109_cross_polarization_refuted"
   ],
   "note": "in Cdl_Props.v."
  },
  {
   "property": "C110",
   "status": "proved",
   "theorems": [
    "C110_superposition",
    "C110_linearity",
    "C110_rays_refuted",
    "C110_energy_refuted",
    "C110_rice_factor",
    "C110_few_rays_refuted",
    "C110_interpolation_refuted",
    "C110_state",
    "C110_attenuation",
    "C110_attenuation_refuted",
    "C110_los_polarization_refuted",
    "C110_doppler",
    "C110_los_phase",
    "C110_los_doppler_refuted",
    "C110_blocks_refuted",
    "C110_moving_transmitter_refuted",
    "C110_reciprocity",
    "C110_reciprocity_refuted",
    "C110_directions_refuted"
   ],
   "note": "in Ray_Props.v."
  },
  {
   "property": "C111",
   "status": "proved",
   "theorems": [
    "C111_defined",
    "C111_identical_positions",
    "C111_carrier_refuted",
    "C111_reciprocal",
    "C111_nlos",
    "C111_attenuates",
    "C111_gain_refuted",
    "C111_increasing",
    "C111_decades",
    "C111_breakpoint",
    "C111_breakpoint_refuted",
    "C111_rural_refuted",
    "C111_indoor_refuted",
    "C111_certain",
    "C111_possible",
    "C111_nested",
    "C111_open_office_refuted",
    "C111_macro_refuted",
    "C111_mast_refuted",
    "C111_factory",
    "C111_factory_refuted"
   ],
   "note": "in Pl_Props.v."
  },
  {
   "property": "C112",
   "status": "proved",
   "theorems": [
    "C112_centres",
    "C112_scale",
    "C112_first_cluster",
    "C112_strongest_cluster",
    "C112_independent_refuted",
    "C112_weaker",
    "C112_rice_refuted",
    "C112_spreads",
    "C112_frames",
    "C112_frames_refuted",
    "C112_wrap_refuted"
   ],
   "note": "in Ang_Props.v."
  },
  {
   "property": "C113",
   "status": "proved",
   "theorems": [
    "C113_multipath",
    "C113_averaged",
    "C113_estimate",
    "C113_explained",
    "C113_equalized",
    "C113_synchronised_refuted",
    "C113_longest_prefix_refuted",
    "C113_short_prefix_refuted",
    "C113_time_varying_refuted",
    "C113_pilot_sections_refuted",
    "C113_antennas"
   ],
   "note": "in Oest_Props.v."
  },
  {
   "property": "C114",
   "status": "proved",
   "theorems": [
    "C114_history",
    "C114_received",
    "C114_refused",
    "C114_direct",
    "C114_direct_hardware",
    "C114_stale_leakage_refuted",
    "C114_played_twice_refuted",
    "C114_filtered",
    "C114_receive_filter_refuted",
    "C114_constructor_refuted",
    "C114_restored_refuted",
    "C114_adaptive",
    "C114_single_operator_refuted",
    "C114_first_signal_refuted",
    "C114_superposition_refuted",
    "C114_usrp_echo",
    "C114_usrp_parts_refuted",
    "C114_usrp_weights_refuted",
    "C114_dummy_history",
    "C114_dummy_process_refuted"
   ],
   "note": "in Phy_Props.v."
  },
  {
   "property": "C115",
   "status": "proved",
   "theorems": [
    "C115_latest",
    "C115_pattern",
    "C115_codebook",
    "C115_first_row",
    "C115_first_row_refuted",
    "C115_pole_repeated",
    "C115_bound",
    "C115_scale",
    "C115_receive_mirrored",
    "C115_receive_refuted",
    "C115_interference",
    "C115_interference_refuted"
   ],
   "note": "in Lobe_Props.v."
  },
  {
   "property": "C116",
   "status": "proved",
   "theorems": [
    "C116_visits",
    "C116_run",
    "C116_complete",
    "C116_origin",
    "C116_interrupted",
    "C116_debug",
    "C116_debug_recording_refuted",
    "C116_dimensions",
    "C116_scenario_dimension_refuted",
    "C116_stand_in_refuted",
    "C116_plots_ordered",
    "C116_last_plotted",
    "C116_no_deadlock",
    "C116_every_sample_refuted",
    "C116_unplotted_refuted",
    "C116_nothing_plotted_refuted"
   ],
   "note": "in Hwl_Props.v."
  },
  {
   "property": "C117",
   "status": "proved",
   "theorems": [
    "C117_spacing",
    "C117_numerology_refuted",
    "C117_pss",
    "C117_pss_in_range",
    "C117_pss_standard_refuted",
    "C117_sss_refuted",
    "C117_pss_section_refuted",
    "C117_sync_mask",
    "C117_few_blocks_refuted",
    "C117_layout",
    "C117_counts",
    "C117_symbols",
    "C117_first_word",
    "C117_pss_transmitted_refuted",
    "C117_slots",
    "C117_slots_refuted",
    "C117_duration_refuted",
    "C117_reload",
    "C117_reload_refuted",
    "C117_reload_link",
    "C117_reload_ports_refuted"
   ],
   "note": "in Nr_Props.v."
  },
  {
   "property": "C118",
   "status": "proved",
   "theorems": [
    "C118_estimated",
    "C118_references",
    "C118_flat",
    "C118_linear",
    "C118_recovered",
    "C118_streams",
    "C118_one_word_refuted",
    "C118_pilot_sections_refuted"
   ],
   "note": "in Lse_Props.v."
  },
  {
   "property": "C119",
   "status": "proved",
   "theorems": [
    "C119_drop",
    "C119_reexecution",
    "C119_propagation",
    "C119_processing",
    "C119_reception",
    "C119_generation",
    "C119_unchanged",
    "C119_registered",
    "C119_noise_refuted",
    "C119_announced",
    "C119_no_devices",
    "C119_interval",
    "C119_timestamps",
    "C119_trajectories_refuted",
    "C119_stage_names",
    "C119_seeds",
    "C119_seeds_refuted",
    "C119_pages",
    "C119_page_size",
    "C119_saved_points",
    "C119_saved_results",
    "C119_saved_others",
    "C119_saved_refuted"
   ],
   "note": "in Sim_Props.v."
  },
  {
   "property": "C120",
   "status": "proved",
   "theorems": [
    "C120_fresh",
    "C120_index",
    "C120_found",
    "C120_distinct",
    "C120_concurrent",
    "C120_concurrent_refuted",
    "C120_sorted",
    "C120_sorted_refuted",
    "C120_overwrite",
    "C120_accepted",
    "C120_directories_only",
    "C120_style",
    "C120_style_default",
    "C120_plots",
    "C120_plots_refuted",
    "C120_verbosity",
    "C120_verbosity_refuted",
    "C120_verbosity_case",
    "C120_verbosity_order",
    "C120_exceptions"
   ],
   "note": "in Exe_Props.v."
  },
  {
   "property": "C121",
   "status": "proved",
   "theorems": [
    "C121_quadriga_propagation",
    "C121_quadriga_streams_refuted",
    "C121_quadriga_state",
    "C121_quadriga_state_refuted",
    "C121_sionna_propagation",
    "C121_sionna_state",
    "C121_no_path",
    "C121_sionna_invalid_refuted",
    "C121_sionna_rate_refuted",
    "C121_energy_refuted",
    "C121_energy_scale_of_a_path"
   ],
   "note": "in Ext_Props.v."
  },
  {
   "property": "C122",
   "status": "proved",
   "theorems": [
    "C122_bytes",
    "C122_stream",
    "C122_end_of_file_refuted",
    "C122_reloaded",
    "C122_stub",
    "C122_scapy",
    "C122_scapy_small",
    "C122_scapy_fields_refuted",
    "C122_scapy_layers_refuted",
    "C122_scapy_padding_refuted",
    "C122_scapy_evaluation_refuted"
   ],
   "note": "in Gen_Props.v."
  },
  {
   "property": "C123",
   "status": "proved",
   "theorems": [
    "C123_spatial_delay",
    "C123_spatial_triangle",
    "C123_path_gain",
    "C123_inverse_square",
    "C123_gain_refuted",
    "C123_close_refuted",
    "C123_setting",
    "C123_random_delay",
    "C123_reciprocity_refuted",
    "C123_random_loss_refuted",
    "C123_decorrelation_refuted"
   ],
   "note": "in Dly_Props.v."
  },
  {
   "property": "C124",
   "status": "proved",
   "theorems": [
    "C124_same_rate",
    "C124_samples_kept",
    "C124_blocks_kept",
    "C124_linear",
    "C124_times",
    "C124_overlap",
    "C124_overlap_refuted",
    "C124_empty_refuted",
    "C124_count_refuted",
    "C124_short",
    "C124_flag_refuted",
    "C124_mix_bands",
    "C124_mix_wide_refuted",
    "C124_mix_tone",
    "C124_mix_phase_refuted",
    "C124_mix_offset_refuted",
    "C124_delay_matrix"
   ],
   "note": "in Res_Props.v."
  },
  {
   "property": "C125",
   "status": "proved",
   "theorems": [
    "C125_pilots_are_fresh",
    "C125_new_elements",
    "C125_elements_are_checked",
    "C125_constructor_refuted",
    "C125_without_waveform",
    "C125_stale_pilots_refuted",
    "C125_removed_elements_refuted",
    "C125_elements_are_repeated",
    "C125_every_other_subcarrier",
    "C125_halves_repeat",
    "C125_suppressed_halves_refuted",
    "C125_within_the_signal",
    "C125_errors",
    "C125_repeating_symbol_found",
    "C125_last_symbol_refuted",
    "C125_single_symbol_refuted",
    "C125_pilot_found",
    "C125_frequency_offset",
    "C125_gain"
   ],
   "note": "in Scx_Props.v."
  },
  {
   "property": "C126",
   "status": "proved",
   "theorems": [
    "C126_loopback",
    "C126_spectrum",
    "C126_half_the_band",
    "C126_errors",
    "C126_silence",
    "C126_delay",
    "C126_delayed_loopback_refuted",
    "C126_uploaded",
    "C126_uploaded_streams_refuted",
    "C126_empty_recordings"
   ],
   "note": "in Aud_Props.v."
  },
  {
   "property": "C127",
   "status": "proved",
   "theorems": [
    "C127_newest_sample",
    "C127_single_carrier_static",
    "C127_late_taps_are_ignored",
    "C127_flat_rectangular",
    "C127_first_symbol_refuted",
    "C127_fmcw_refuted",
    "C127_ofdm_static",
    "C127_ofdm_equalized",
    "C127_ofdm_flat"
   ],
   "note": "in Ice_Props.v."
  },
  {
   "property": "C128",
   "status": "proved",
   "theorems": [
    "C128_slots",
    "C128_slot_order",
    "C128_constructor",
    "C128_unsupported",
    "C128_longest_frame",
    "C128_silent_transmitters_refuted",
    "C128_samples_needed",
    "C128_silence",
    "C128_negative_silence_refuted",
    "C128_signals_are_transmitted",
    "C128_signal_frames",
    "C128_replaced_signals_refuted",
    "C128_receivers_are_checked",
    "C128_time_offsets",
    "C128_without_devices",
    "C128_random_triggers",
    "C128_random_triggers_need_one_rate"
   ],
   "note": "in Opr_Props.v."
  },
  {
   "property": "C129",
   "status": "proved",
   "theorems": [
    "C129_echo_peak",
    "C129_mirrored_echo",
    "C129_decimation",
    "C129_reception",
    "C129_slow_reception",
    "C129_range_bins",
    "C129_default_ranges_refuted",
    "C129_doppler_bins",
    "C129_odd_chirps_refuted",
    "C129_streams",
    "C129_range_resolution",
    "C129_ping"
   ],
   "note": "in Ti_Props.v."
  },
  {
   "property": "C130",
   "status": "proved",
   "theorems": [
    "C130_traced_propagation",
    "C130_traced_state",
    "C130_traced_taps_refuted",
    "C130_no_paths",
    "C130_traced_energy_refuted",
    "C130_quadriga_propagation",
    "C130_quadriga_state",
    "C130_quadriga_antennas",
    "C130_quadriga_mixed_up_refuted",
    "C130_lost_signals_refuted"
   ],
   "note": "in Trc_Props.v."
  },
  {
   "property": "C131",
   "status": "proved",
   "theorems": [
    "C131_grid",
    "C131_figures_are_apart",
    "C131_offsets_refuted"
   ],
   "note": "in Tls_Props.v."
  },
  {
   "property": "C132",
   "status": "proved",
   "theorems": [
    "C132_jobs",
    "C132_names_refuted"
   ],
   "note": "in Tls_Props.v."
  },
  {
   "property": "C133",
   "status": "proved",
   "theorems": [
    "C133_magnitudes",
    "C133_phases_of_first_parts",
    "C133_equal_signs_refuted",
    "C133_positive_angles_refuted",
    "C133_quarter_turn",
    "C133_ports"
   ],
   "note": "in Iqs_Props.v."
  },
  {
   "property": "C134",
   "status": "proved",
   "theorems": [
    "C134_drops",
    "C134_drops_succeed",
    "C134_failed_transmissions",
    "C134_failed_receptions",
    "C134_numbers_of_signals_refuted",
    "C134_numbers_of_states_refuted",
    "C134_direct_numbers",
    "C134_usrp_direct",
    "C134_audio_direct",
    "C134_audio_refused",
    "C134_usrp_constructor_refuted",
    "C134_usrp_devices",
    "C134_usrp_names_refuted",
    "C134_usrp_modes"
   ],
   "note": "in Psc_Props.v."
  },
  {
   "property": "C135",
   "status": "proved",
   "theorems": [
    "C135_angles",
    "C135_receives_the_device",
    "C135_transmits_to_the_device",
    "C135_equivalent_focus_refuted",
    "C135_capon_turned",
    "C135_streams"
   ],
   "note": "in Foc_Props.v."
  },
  {
   "property": "C136",
   "status": "proved",
   "theorems": [
    "C136_settings",
    "C136_realizations",
    "C136_sizes",
    "C136_offsets",
    "C136_superposition",
    "C136_streams",
    "C136_both_directions"
   ],
   "note": "in Hpf_Props.v."
  },
  {
   "property": "C137",
   "status": "proved",
   "theorems": [
    "C137_zero_forcing",
    "C137_least_squares",
    "C137_single_stream",
    "C137_single_stream_refuted",
    "C137_mmse_raises",
    "C137_mmse_is_zero_forcing",
    "C137_mmse"
   ],
   "note": "in Eqz_Props.v."
  }
 ]
}