# What Print Assumptions lists

Generated by `tools/assumptions.py` from the output of the build. All axioms are of the standard library.

## Closed under the global context (126 theorems)

`add_and_remove_counts`, `add_then_remove`, `adjacent_pairs`, `aligner_determined`, `aligner_failed`, `aligner_kept`, `aligner_unpacks`, `apply_keys_fresh`, `attribute_forwarded`, `attribute_missing`, `attribute_set`, `batch_entries`, `blob_names`, `blob_names_collide_refuted`, `blob_unreadable_refuted`, `bootstrap_parts`, `bootstrap_raises`, `bootstrap_single_refuted`, `character_classes`, `checkpoint_contents`, `checkpoint_keys`, `checkpoint_loses_refuted`, `checkpoint_round_trip`, `concatenate_values`, `current_goal_position`, `cut_detector`, `default_levels`, `default_limit`, `default_unet`, `detector_cut`, `detector_failed`, `detector_fresh`, `download_complete_refuted`, `download_fresh`, `download_history`, `download_kept`, `download_retry`, `drawn_atoms`, `each_trajectory_alone`, `environment_reached`, `examples_seen`, `frame_lookup`, `fresh_neighbors`, `global_local_determined`, `global_local_layout`, `graph_examples_refuted`, `has_attribute_exact`, `image_panel`, `index_unstacked`, `jitter_rolls`, `load_chooses`, `load_model_only`, `load_raises`, `lower_case`, `model_read_late`, `model_read_once`, `name_round_trip`, `nested_limits`, `new_material_not_reset`, `new_object`, `new_predictor_models`, `no_limit_transparent`, `no_step_limit`, `one_flush_trajectories`, `outline_closed`, `package_aligner_installs`, `package_detector_refuted`, `package_fixed`, `package_plain`, `parameters_distinct`, `path_parts`, `private_not_forwarded`, `processes_share`, `rate_function_crash`, `rate_function_crash_refuted`, `rate_function_file`, `rate_function_read`, `read_missing_file`, `read_raw`, `read_unknown_extension`, `read_unparsable`, `reading_ends`, `record_file_names`, `record_file_strings`, `registered_twice`, `reload_model`, `remove_unregistered`, `reset_agent`, `reset_zero`, `saved_name_clean`, `set_through_wrapper_refuted`, `shipped_parameters`, `shipped_suite_sizes`, `shipped_suites`, `silicon_positions_exact`, `stack_errors`, `stacked_index`, `stacked_is_list`, `stacked_members`, `step_limit_below_one`, `step_limit_bounds`, `step_limit_errors`, `step_limit_one_ends`, `step_limit_protocol`, `step_limit_relays`, `training_completed`, `training_crash_refuted`, `training_epochs`, `training_keeps`, `training_one_crash`, `training_resumed`, `training_uninterrupted`, `transition_between_unique`, `unboxed`, `unet_determined`, `unet_layout`, `uniform_agent_drawn`, `use_reads`, `video_frames_show`, `video_images`, `video_time_stamps`, `wrapper_transparent`, `write_read_round_trip`, `write_records_ok`, `write_records_raises`, `write_unknown_extension`

## `ClassicalDedekindReals.sig_forall_dec` (31 theorems)

`align_pass`, `alignment_raises`, `apply_shift_spec`, `apply_to_observation_exact`, `blank_history`, `classifier_choice`, `classifier_unknown`, `classifiers_stop`, `classifiers_written`, `conv_values`, `created_environment`, `created_shows`, `detection_pixels`, `frame_missing_key`, `fresh_goal`, `label_targets`, `mirror_keeps`, `mirror_other_labels`, `mirror_unique`, `no_pixels`, `reset_blank`, `right_size`, `save_fails`, `save_single`, `script_history`, `shift_grid_and_control`, `sklearn_mlp_refuted`, `stacking`, `stacking_raises`, `transpose_values`, `uniform_agent_bounds`

## `ClassicalDedekindReals.sig_forall_dec`, `FunctionalExtensionality.functional_extensionality_dep` (188 theorems)

`adamw_step`, `adapters_never_negative`, `advertised_actions_accepted`, `advertised_bounds`, `aggregation_averages`, `aggregation_ignores_failures`, `aggregation_ignores_order`, `aggregation_of_times`, `aggregation_raises_on_nothing`, `aligned_independently`, `alignment_accuracy_refuted`, `alignment_accuracy_zero`, `alignment_finds_truth`, `alignment_keeps`, `alignment_pixels`, `alignment_starts_afresh`, `atom_places`, `byte_wraps`, `capacity_irrelevant`, `classifier_plots`, `classifier_plots_fail`, `classifier_rates`, `column_sums`, `context_columns`, `controls_in_view`, `corner_atoms`, `crop_exact`, `crop_oblong_refuted`, `crop_pans`, `crop_same`, `crop_shape`, `crop_shows`, `crop_succeeds`, `crop_vanishes`, `cumulated_drift_is_sum`, `data_plot`, `data_plot_errors`, `dataset_loaded`, `dataset_without_readout`, `default_alignment`, `default_image_seconds`, `default_steps`, `delta_adapter_errors`, `delta_adapter_reset`, `delta_adapter_result`, `delta_in_view`, `delta_unclipped`, `delta_walk`, `dense_refuted`, `detected`, `detected_complete`, `detected_margin`, `detected_oblong_refuted`, `detected_sound`, `detection_epoch_averages`, `direct_adapter_errors`, `direct_adapter_result`, `drift_moves_material_view`, `drift_shifts_controls_refuted`, `dwell_time_monotone`, `ends`, `episode_ids_agree_iff`, `episode_ids_refuted`, `epoch_averages`, `eval_names`, `eval_registration`, `evaluate_faithful`, `evaluate_in_order`, `evaluate_raises`, `evaluate_returns`, `evaluated_averages_are_numbers`, `evaluation_ends`, `evaluation_may_not_end`, `exponential_noise`, `features_mismatch`, `find_argmax_best`, `find_argmax_errors`, `flush_again`, `fov_text`, `fov_text_identifies`, `frame_conversion_errors`, `frame_not_drawn`, `frame_panels`, `frame_round_trip_material`, `frame_round_trip_microscope`, `frame_without_atoms`, `get_atoms_in_bounds_exact`, `get_atoms_in_bounds_idempotent`, `get_atoms_in_bounds_monotone`, `global_local_reach`, `global_local_sizes`, `graph_errors`, `graph_network`, `hybrid_places`, `image_parameters_drawn`, `image_parameters_ranges`, `in_view_iff_unit_square`, `labels_scaled`, `labels_told_apart`, `last_iteration`, `last_step_full`, `late_reset_means_no_action`, `levels`, `margin_pixels`, `material_frame_adapter_errors`, `material_frame_adapter_result`, `material_frame_aim`, `material_frame_drawn`, `material_to_microscope_exact`, `material_view_converts_back`, `material_view_exact`, `material_view_unit_square`, `metrics_forgotten`, `microscope_frame_corners`, `microscope_frame_drawn`, `microscope_names`, `microscope_to_material_exact`, `middle_mean_robust`, `mirror_involution`, `mixture_eq_exact`, `mixture_eq_reflexive_symmetric`, `mixture_eq_transitive_refuted`, `moved_keeps_size`, `new_greedy_nothing`, `new_greedy_spec`, `no_features`, `no_iterations`, `no_loss`, `noisy_image_parameters_ranges`, `one_flush_episode_ids`, `one_iteration`, `only_displacements`, `order_restores`, `overflow_unnoticed_refuted`, `package_best`, `package_trained`, `points_renamed`, `poisson_counts`, `poisson_raises`, `pool_values`, `preprocess_fails`, `preprocess_flat`, `preprocess_normalizes`, `probability_value`, `rate_maxima`, `rate_visual_errors`, `relative_adapter_errors`, `relative_adapter_result`, `relative_aim`, `relative_defaults`, `relative_dwell_monotone`, `relative_dwell_times`, `relative_missing_dwell`, `relative_needs_one_silicon`, `render_goal_visible`, `render_shows`, `resize_exact`, `running_sums_last`, `salt_and_pepper`, `sampled_every`, `sampled_ranges`, `sampled_undefined`, `seeding_adapters`, `seen_as_trained`, `shift_compose`, `shift_inverse`, `shift_is_translation`, `shipped_adapters_accept`, `shipped_adapters_one_control`, `specs_relayed`, `stateless_resets`, `step_records_once`, `synthetic_inputs`, `timedelta_format`, `timeout_respected`, `train_names`, `training_graph`, `unet_reach`, `unet_sizes`, `uniform_noise`, `usual_margin`, `video_not_saved`, `video_saved`, `wrong_size_error`, `zoom_compose`, `zoom_exact`, `zoom_inverse`, `zoom_nonpositive`

## `ClassicalDedekindReals.sig_forall_dec`, `ClassicalDedekindReals.sig_not_dec`, `FunctionalExtensionality.functional_extensionality_dep` (131 theorems)

`align_latest_calls_independent_refuted`, `align_latest_finds_drift`, `align_latest_init_overwritten`, `align_latest_init_untouched`, `align_latest_limited`, `align_latest_lost`, `align_latest_no_iterations`, `align_latest_raises`, `align_latest_runs`, `apply_keys`, `arc_angle_refuted`, `augment_closed`, `augment_copies`, `augment_no_reflection`, `augment_raises`, `augment_rows`, `augmented_states`, `beam_converted_twice_refuted`, `blur_mean`, `call_answer`, `call_succeeds`, `canonical_sheet`, `canonical_sheet_fails`, `centred_on_silicon`, `clique_merge_apart`, `clique_merge_clumping`, `clique_merge_conserves`, `clique_merge_conserves_refuted`, `clique_merge_counts`, `clique_merge_in_box`, `clique_merge_inside`, `conversion_missing_frame`, `copy_keeps`, `dataset_converted`, `dataset_convertible`, `default_losses`, `direction_unique`, `distill_epoch_keys`, `distill_key`, `distill_loss_zero`, `distill_moments`, `distill_single`, `distill_step_keys`, `distill_targets_rates`, `ensemble_deterministic`, `ensemble_rates`, `errors_count_padding_refuted`, `failed_call`, `first_call`, `gaussian_noise`, `generated_sheet`, `generated_sheet_drawn`, `graph_losses`, `graphene_sheet_spacing`, `grid_eq_meaning`, `grid_eq_reordering`, `grid_eq_sizes`, `grid_eq_sufficient`, `grid_eq_symmetric_refuted`, `grid_hash_reordering`, `hop_moves_silicon`, `hybrid_answers`, `idle_steps`, `label_one`, `last_batches_idle_refuted`, `learning_rate_error`, `learning_rate_shape`, `made_observation`, `made_sheet`, `memory`, `memory_after_reset`, `mirror_described`, `mirror_turn`, `mixture_hops`, `mixture_rates`, `mixture_without_weight`, `naive_merge_conserves`, `naive_merge_groups`, `naive_merge_inputs_unchanged_refuted`, `naive_merge_pure_refuted`, `naive_merge_raises`, `naive_merge_single`, `nan_spreads`, `nearest_neighbors3_duplicates_refuted`, `nearest_neighbors3_exact`, `nearest_neighbour_contract_satisfiable`, `padding_ignored`, `positions_in_view`, `propagate_atomic_numbers_default`, `propagate_atomic_numbers_spec`, `propagate_changes_only_loose_ends`, `propagate_graphene_classes_spec`, `propagate_keeps_silicon_refuted`, `propagate_two_colours`, `rate_arc`, `rate_contours`, `rate_function_round_trip`, `rate_line`, `rate_plot_errors`, `rates_give_outcomes`, `reset_material`, `reset_without_atoms`, `rotate_dataset_copies`, `rotation_counter_clockwise`, `rotation_group`, `rotation_isometry`, `scale_exact`, `scale_factor`, `scale_factor_nan`, `script_calls`, `script_independent`, `sheet_atoms`, `sheet_complete_atoms`, `sheet_interior_atoms`, `sheet_spacing`, `short_dataset_empty`, `simple_rate_errors`, `simple_rate_order`, `simple_rate_translation`, `simple_rate_values`, `single_model_rates`, `single_silicon_missing`, `single_silicon_nearest`, `softmax_probabilities`, `std_zero`, `turned_by_unique`, `turned_compose`, `turned_described`, `turned_keeps`, `turned_zero`, `wrong_size_stuck`

## `ClassicalDedekindReals.sig_forall_dec`, `ClassicalDedekindReals.sig_not_dec`, `Classical_Prop.classic`, `FunctionalExtensionality.functional_extensionality_dep` (271 theorems)

`agent_shows`, `align_directory_refuted`, `align_script_raises`, `align_script_writes`, `alignment_losses`, `angles_are_polar_angles`, `bits_ieee`, `classification_network_refuted`, `classifier_run`, `classifier_run_no_data`, `classifier_run_stops`, `classify_lattice_types_errors`, `classify_lattice_types_spec`, `clean_image`, `clean_image_nan`, `clean_image_raises`, `contrast_power`, `contrast_raises`, `control_proto_round_trip`, `convert_unlabelled_refuted`, `convert_writes`, `counts_add_up`, `created_environment_lives`, `criteria_suffice`, `dataset_splits`, `dataset_splits_no_context`, `dataset_splits_raise`, `dataset_splits_succeed`, `decided_step`, `default_greedy_action`, `default_mask`, `default_observation`, `detection_batch`, `detection_report`, `detector_empty`, `detector_outcomes`, `drift_losses`, `drift_proto_exact`, `dune_resets_first`, `elapsed_time_of_reset`, `elapsed_time_of_step`, `ensemble_not_saved`, `ensemble_training`, `env_protocol`, `env_reset_raises`, `env_reset_returns`, `env_return`, `env_rewards`, `env_start_pays`, `env_step_ends`, `env_step_pays`, `env_step_raises`, `env_step_returns`, `env_step_starts`, `epoch_batches`, `epoch_raises`, `eval_command_complete`, `eval_command_limit`, `eval_command_returns`, `eval_command_unknown`, `evaluate_observers`, `evaluate_observers_limited`, `evaluation_videos`, `event_log_accounts`, `event_log_replays`, `every_call_is_history`, `everything_counted`, `exit_flushes`, `exposure_diverges`, `exposure_is_chain_of_hops`, `exposure_runs_clocks`, `exposure_terminates`, `exposures_conserve_sheet`, `failed_first_observation_sticks`, `failed_goal_reset_keeps_goal`, `failed_reset_not_retried`, `failed_reset_state`, `failed_step_state`, `features_length`, `features_need_silicon_goal`, `files_in_order`, `final_step_reported`, `first_exactly_once`, `first_observation`, `first_observation_nan`, `flush_raises`, `flush_writes`, `fov_moves_only_to_recentre`, `fov_proto_round_trip`, `fov_square_of_constant_size`, `get_lattice_clusterer_spec`, `goal_framing_independent`, `goal_is_an_atom`, `goal_outcome`, `goal_outcome_errors`, `goal_reset_chooses`, `goal_reset_errors`, `goal_reward_range`, `greedy_action`, `greedy_bounds_refuted`, `greedy_distance`, `greedy_errors`, `greedy_experiments`, `greedy_given_picture`, `grid_hash_consistent_refuted`, `grid_proto_round_trip`, `history_bounded`, `history_in_order`, `human_prior_aims_at_neighbour_refuted`, `human_prior_any`, `human_prior_bounds`, `human_prior_list`, `human_prior_peak`, `hybrid_first`, `hybrid_settings`, `image_features_spec`, `images_do_not_rescan`, `kept_means`, `labels_in_range`, `last_transition_is_final_material`, `learned_experiments`, `left_out_means`, `logged_outcome_is_shown`, `logger_returns_controls`, `logging_is_transparent`, `loss_above`, `loss_floor`, `loss_is_likelihood`, `loss_weights`, `losses_nonneg`, `lost_stays_lost`, `made_agent_draws`, `margin_refuted`, `mask_displaced_refuted`, `mask_graphene`, `mask_oblong`, `mask_pixels`, `material_frame_layout`, `material_use_after_reset`, `material_use_before_reset`, `mixture_max_rate_refuted`, `mixture_rate_bounds`, `mlp_evaluates`, `nameless_dataset`, `network_data`, `no_dwell_no_effect`, `no_transition_no_class_loss`, `nothing_to_film`, `observation_lost`, `observation_merged`, `observation_merged_by_cliques`, `observation_proto_round_trip`, `observation_returns`, `observation_shows_material`, `observations_conform`, `observations_keep_arrays_refuted`, `observers_agree`, `observing_again_returns`, `other_sources`, `out_of_order_is_stuck`, `outcomes_distribution`, `pixel_loss`, `plotting_fails_refuted`, `predict_context_refuted`, `predict_ensemble_refuted`, `predict_rates_refuted`, `predict_scores`, `predict_stale`, `predict_succeeds`, `predictor_no_silicon`, `predictor_results`, `predictor_too_few_atoms`, `prepared`, `preparing_raises`, `prior_data`, `pristine_layout`, `processing_raises`, `random_eval_command`, `random_evaluations_run`, `random_experiments`, `rate_network_saved`, `rate_network_single`, `recording_is_transparent`, `render_after_reset`, `render_beam`, `render_never_raises`, `reported_accuracy`, `reported_drift_limited`, `rescan_raises_through_logger`, `rescan_step`, `reset_complete`, `results_reproduce`, `returned_rates_refuted`, `rotate_by_minus_angle`, `round_blob_refuted`, `sample_from_prior_row`, `sampled_parameters_image`, `sampled_usable`, `save_load`, `scene_motion`, `second_round_trip_identity`, `seeding_reproduces`, `shipped_features_describe`, `shipped_features_position_only`, `shipped_rate_functions_hop`, `shipped_rates_steady`, `shipped_resets_first`, `shipped_stack_never_raises`, `shipped_stack_sessions`, `shipped_start_afresh`, `short_exposures_never_raise`, `silicon_always_in_safe_area`, `simple_environment_runs`, `simulator_use_after_reset`, `simulator_use_before_reset`, `simulator_without_atoms`, `single_atom_blob`, `single_component_peak`, `small_drift_lost`, `softmax_classes`, `specs_kept`, `split_partition`, `split_size`, `stack_evaluates`, `stack_films`, `stack_never_raises`, `standardize_frame`, `standardize_invariant`, `standardize_keeps_distances`, `standardize_raises`, `stem_image`, `stem_image_no_atoms`, `stem_image_stages`, `step_complete`, `step_optimises`, `step_passes_on`, `stored_coordinate_is_nearest_float`, `synthetic_clock`, `synthetic_modes`, `synthetic_ranges`, `synthetic_rates_refuted`, `test_data_unused`, `time_fields`, `times_above_16s_refuted`, `times_below_16s_exact`, `train_environment_repeats`, `train_environment_runs`, `train_experiments_run`, `trajectories_file_round_trip`, `trajectory_proto_round_trip`, `transition_proto_exact`, `transition_times`, `truth_minimises_loss`, `two_columns_raise`, `uncertain_silicon_refuted`, `unlabelled_images_not_serialisable`, `unreadable_file`, `unset_voltage_refuted`, `upload_complete`, `upload_crash`, `upload_reads`, `upload_result`, `upload_status`, `vector_feature_errors`, `videos_change_nothing`, `voltage_and_current_ignored`, `voltage_and_current_reported`, `voltage_and_current_round_trip`, `who_needs_images`, `writing_down_is_harmless`, `zero_rates`
