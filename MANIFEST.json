{
 "claims": [
  {
   "property": "C01",
   "status": "proved",
   "theorems": [
    "frame_round_trip_microscope",
    "frame_round_trip_material"
   ],
   "note": ""
  },
  {
   "property": "C02",
   "status": "proved",
   "theorems": [
    "microscope_to_material_exact",
    "material_to_microscope_exact",
    "frame_conversion_errors"
   ],
   "note": ""
  },
  {
   "property": "C03",
   "status": "proved",
   "theorems": [
    "microscope_frame_corners",
    "in_view_iff_unit_square"
   ],
   "note": ""
  },
  {
   "property": "C04",
   "status": "proved",
   "theorems": [
    "resize_exact",
    "zoom_exact",
    "zoom_nonpositive",
    "zoom_compose",
    "zoom_inverse"
   ],
   "note": ""
  },
  {
   "property": "C05",
   "status": "proved",
   "theorems": [
    "shift_is_translation",
    "shift_compose",
    "shift_inverse",
    "shift_grid_and_control"
   ],
   "note": ""
  },
  {
   "property": "C06",
   "status": "proved",
   "theorems": [
    "get_atoms_in_bounds_exact",
    "get_atoms_in_bounds_idempotent",
    "get_atoms_in_bounds_monotone"
   ],
   "note": ""
  },
  {
   "property": "C07",
   "status": "proved",
   "theorems": [
    "material_view_exact",
    "material_view_unit_square",
    "material_view_converts_back"
   ],
   "note": ""
  },
  {
   "property": "C08",
   "status": "proved",
   "theorems": [
    "reset_material",
    "reset_without_atoms"
   ],
   "note": ""
  },
  {
   "property": "C09",
   "status": "proved",
   "theorems": [
    "shipped_rate_functions_hop",
    "exposures_conserve_sheet"
   ],
   "note": ""
  },
  {
   "property": "C10",
   "status": "proved",
   "theorems": [
    "exposure_is_chain_of_hops",
    "hop_moves_silicon",
    "shipped_rate_functions_hop"
   ],
   "note": ""
  },
  {
   "property": "C11",
   "status": "proved",
   "theorems": [
    "transition_times",
    "last_transition_is_final_material",
    "no_dwell_no_effect"
   ],
   "note": ""
  },
  {
   "property": "C12",
   "status": "proved",
   "theorems": [
    "exposure_terminates",
    "exposure_diverges"
   ],
   "note": ""
  },
  {
   "property": "C13",
   "status": "proved",
   "theorems": [
    "material_use_before_reset",
    "new_material_not_reset",
    "material_use_after_reset",
    "simulator_use_before_reset",
    "simulator_use_after_reset",
    "simulator_without_atoms"
   ],
   "note": "After reset RuntimeError can only come from the rate function or the image renderer, hence their hypotheses."
  },
  {
   "property": "C14",
   "status": "proved",
   "theorems": [
    "simple_rate_values",
    "simple_rate_errors",
    "simple_rate_order",
    "simple_rate_translation"
   ],
   "note": ""
  },
  {
   "property": "C15",
   "status": "proved",
   "theorems": [
    "predictor_results",
    "predictor_no_silicon",
    "predictor_too_few_atoms"
   ],
   "note": ""
  },
  {
   "property": "C16",
   "status": "proved",
   "theorems": [
    "mixture_rates",
    "mixture_rate_bounds",
    "single_component_peak",
    "mixture_without_weight",
    "mixture_max_rate_refuted"
   ],
   "note": "The naive bound by max_rate is refuted with two equal components, for every neighbour search meeting its contract."
  },
  {
   "property": "C17",
   "status": "proved",
   "theorems": [
    "single_silicon_missing",
    "single_silicon_nearest",
    "silicon_positions_exact"
   ],
   "note": ""
  },
  {
   "property": "C18",
   "status": "proved",
   "theorems": [
    "grid_eq_reordering",
    "grid_eq_meaning",
    "grid_eq_sufficient",
    "grid_eq_sizes",
    "grid_eq_symmetric_refuted",
    "grid_hash_reordering",
    "grid_hash_consistent_refuted"
   ],
   "note": "The two naive expectations (symmetry, hash consistency) are refuted by witnesses valid for every tie-breaking of the search."
  },
  {
   "property": "C19",
   "status": "proved",
   "theorems": [
    "sheet_atoms",
    "sheet_spacing",
    "sheet_interior_atoms",
    "sheet_complete_atoms",
    "generated_sheet",
    "graphene_sheet_spacing",
    "generated_sheet_drawn"
   ],
   "note": ""
  },
  {
   "property": "C20",
   "status": "proved",
   "theorems": [
    "rotation_isometry",
    "rotation_group",
    "rotation_counter_clockwise",
    "angles_are_polar_angles",
    "rotate_by_minus_angle"
   ],
   "note": ""
  },
  {
   "property": "C21",
   "status": "proved",
   "theorems": [
    "silicon_always_in_safe_area"
   ],
   "note": ""
  },
  {
   "property": "C22",
   "status": "proved",
   "theorems": [
    "fov_square_of_constant_size",
    "fov_moves_only_to_recentre"
   ],
   "note": ""
  },
  {
   "property": "C23",
   "status": "proved",
   "theorems": [
    "elapsed_time_of_reset",
    "elapsed_time_of_step"
   ],
   "note": ""
  },
  {
   "property": "C24",
   "status": "proved",
   "theorems": [
    "observation_shows_material"
   ],
   "note": ""
  },
  {
   "property": "C25",
   "status": "proved",
   "theorems": [
    "step_complete",
    "reset_complete",
    "observers_agree"
   ],
   "note": ""
  },
  {
   "property": "C26",
   "status": "proved",
   "theorems": [
    "event_log_replays",
    "event_log_accounts"
   ],
   "note": ""
  },
  {
   "property": "C27",
   "status": "proved",
   "theorems": [
    "voltage_and_current_ignored",
    "voltage_and_current_reported"
   ],
   "note": ""
  },
  {
   "property": "C28",
   "status": "proved",
   "theorems": [
    "add_then_remove",
    "remove_unregistered",
    "add_and_remove_counts",
    "registered_twice"
   ],
   "note": ""
  },
  {
   "property": "C29",
   "status": "proved",
   "theorems": [
    "controls_in_view",
    "direct_adapter_result",
    "direct_adapter_errors",
    "delta_adapter_result",
    "delta_adapter_errors",
    "relative_adapter_result",
    "material_frame_adapter_result",
    "advertised_actions_accepted",
    "advertised_bounds",
    "stateless_resets"
   ],
   "note": ""
  },
  {
   "property": "C30",
   "status": "proved",
   "theorems": [
    "direct_adapter_result",
    "delta_adapter_result",
    "relative_dwell_times",
    "dwell_time_monotone",
    "relative_dwell_monotone",
    "relative_defaults"
   ],
   "note": ""
  },
  {
   "property": "C31",
   "status": "proved",
   "theorems": [
    "relative_needs_one_silicon",
    "relative_missing_dwell",
    "relative_adapter_errors",
    "material_frame_adapter_errors"
   ],
   "note": "IndexError is stated for a non-empty action on a field of view with an extent; the other errors are in the *_errors theorems."
  },
  {
   "property": "C32",
   "status": "proved",
   "theorems": [
    "relative_aim",
    "material_frame_aim"
   ],
   "note": ""
  },
  {
   "property": "C33",
   "status": "proved",
   "theorems": [
    "delta_walk",
    "delta_unclipped",
    "running_sums_last",
    "delta_in_view",
    "delta_adapter_reset"
   ],
   "note": ""
  },
  {
   "property": "C34",
   "status": "proved",
   "theorems": [
    "goal_reset_chooses",
    "goal_reset_errors",
    "goal_is_an_atom",
    "fresh_goal"
   ],
   "note": ""
  },
  {
   "property": "C35",
   "status": "proved",
   "theorems": [
    "goal_outcome",
    "goal_outcome_errors",
    "goal_reward_range",
    "current_goal_position"
   ],
   "note": ""
  },
  {
   "property": "C36",
   "status": "proved",
   "theorems": [
    "goal_framing_independent"
   ],
   "note": ""
  },
  {
   "property": "C37",
   "status": "proved",
   "theorems": [
    "pristine_layout",
    "material_frame_layout",
    "features_length",
    "vector_feature_errors",
    "features_need_silicon_goal",
    "image_features_spec",
    "who_needs_images"
   ],
   "note": "Entries are rounded to float32; the norm is 1 before rounding. The layout theorems need the silicon position to be occupied by one atom only."
  },
  {
   "property": "C38",
   "status": "proved",
   "theorems": [
    "greedy_action",
    "greedy_errors",
    "greedy_distance",
    "default_greedy_action"
   ],
   "note": ""
  },
  {
   "property": "C39",
   "status": "proved",
   "theorems": [
    "env_protocol",
    "env_step_returns",
    "env_step_starts",
    "env_reset_returns",
    "env_step_raises",
    "env_reset_raises",
    "env_step_ends",
    "created_environment",
    "created_environment_lives",
    "created_shows"
   ],
   "note": "For any simulator, adapter, features and goal; the exact result and state of every call."
  },
  {
   "property": "C40",
   "status": "proved",
   "theorems": [
    "env_step_pays",
    "env_start_pays",
    "env_rewards",
    "env_return",
    "adapters_never_negative"
   ],
   "note": ""
  },
  {
   "property": "C41",
   "status": "proved",
   "theorems": [
    "seeding_reproduces",
    "shipped_start_afresh",
    "seeding_adapters"
   ],
   "note": "The generator is an abstract state machine; both environments have the same rate function, columns and image duration, as these are configuration. The first reset after seeding must not raise."
  },
  {
   "property": "C42",
   "status": "proved",
   "theorems": [
    "failed_reset_state",
    "failed_step_state",
    "failed_reset_not_retried",
    "failed_goal_reset_keeps_goal",
    "two_columns_raise"
   ],
   "note": ""
  },
  {
   "property": "C43",
   "status": "proved",
   "theorems": [
    "step_limit_relays",
    "step_limit_bounds",
    "step_limit_protocol",
    "no_limit_transparent",
    "step_limit_errors",
    "dune_resets_first",
    "default_limit",
    "no_step_limit",
    "step_limit_below_one",
    "step_limit_one_ends"
   ],
   "note": ""
  },
  {
   "property": "C44",
   "status": "proved",
   "theorems": [
    "stack_never_raises",
    "shipped_rates_steady",
    "shipped_features_describe",
    "shipped_adapters_accept",
    "shipped_stack_never_raises",
    "shipped_stack_sessions",
    "two_columns_raise"
   ],
   "note": "Exponential draws above half a microsecond (smaller ones can keep the exposure loop from ending, see C15) and a bound on the passes of that loop of at least the exposure time in microseconds; if the features need an image, the renderer must return one."
  },
  {
   "property": "C45",
   "status": "proved",
   "theorems": [
    "evaluate_returns",
    "evaluate_raises",
    "evaluate_in_order",
    "evaluate_faithful",
    "evaluation_ends",
    "evaluation_may_not_end",
    "shipped_suites",
    "shipped_suite_sizes"
   ],
   "note": "For any agent and environment; a bound on the steps of one episode, which evaluation_ends shows to be enough if every step takes time."
  },
  {
   "property": "C46",
   "status": "proved",
   "theorems": [
    "timeout_respected",
    "late_reset_means_no_action"
   ],
   "note": ""
  },
  {
   "property": "C47",
   "status": "proved",
   "theorems": [
    "aggregation_raises_on_nothing",
    "aggregation_averages",
    "aggregation_of_times",
    "aggregation_ignores_order",
    "aggregation_ignores_failures",
    "evaluated_averages_are_numbers"
   ],
   "note": ""
  },
  {
   "property": "C48",
   "status": "proved",
   "theorems": [
    "evaluate_observers",
    "evaluate_observers_limited"
   ],
   "note": ""
  },
  {
   "property": "C49",
   "status": "proved",
   "theorems": [
    "agent_shows",
    "first_exactly_once",
    "writing_down_is_harmless",
    "rescan_step",
    "decided_step",
    "step_passes_on",
    "reset_agent"
   ],
   "note": ""
  },
  {
   "property": "C50",
   "status": "proved",
   "theorems": [
    "every_call_is_history",
    "flush_writes",
    "one_flush_trajectories",
    "step_records_once",
    "one_flush_episode_ids",
    "flush_raises",
    "exit_flushes",
    "trajectories_file_round_trip"
   ],
   "note": ""
  },
  {
   "property": "C51",
   "status": "proved",
   "theorems": [
    "episode_ids_refuted",
    "one_flush_episode_ids",
    "episode_ids_agree_iff"
   ],
   "note": "The claim is refuted; the ids that are written are characterised exactly."
  },
  {
   "property": "C52",
   "status": "proved",
   "theorems": [
    "flush_again",
    "flush_writes",
    "step_records_once"
   ],
   "note": ""
  },
  {
   "property": "C53",
   "status": "proved",
   "theorems": [
    "rescan_raises_through_logger",
    "logger_returns_controls",
    "images_do_not_rescan"
   ],
   "note": ""
  },
  {
   "property": "C54",
   "status": "proved",
   "theorems": [
    "stored_coordinate_is_nearest_float",
    "grid_proto_round_trip",
    "control_proto_round_trip",
    "fov_proto_round_trip",
    "observation_proto_round_trip",
    "trajectory_proto_round_trip",
    "second_round_trip_identity"
   ],
   "note": ""
  },
  {
   "property": "C55",
   "status": "proved",
   "theorems": [
    "times_below_16s_exact",
    "times_above_16s_refuted",
    "time_fields"
   ],
   "note": ""
  },
  {
   "property": "C56",
   "status": "proved",
   "theorems": [
    "voltage_and_current_round_trip",
    "unset_voltage_refuted"
   ],
   "note": ""
  },
  {
   "property": "C57",
   "status": "proved",
   "theorems": [
    "transition_proto_exact",
    "unlabelled_images_not_serialisable"
   ],
   "note": ""
  },
  {
   "property": "C58",
   "status": "proved",
   "theorems": [
    "drift_proto_exact",
    "small_drift_lost"
   ],
   "note": ""
  },
  {
   "property": "C59",
   "status": "proved",
   "theorems": [
    "cumulated_drift_is_sum",
    "apply_to_observation_exact",
    "drift_moves_material_view",
    "drift_shifts_controls_refuted"
   ],
   "note": ""
  },
  {
   "property": "C60",
   "status": "proved",
   "theorems": [
    "record_file_names",
    "record_file_strings",
    "path_parts",
    "write_records_ok",
    "write_records_raises",
    "write_unknown_extension",
    "read_unknown_extension",
    "read_missing_file",
    "read_raw",
    "write_read_round_trip",
    "read_unparsable",
    "trajectories_file_round_trip"
   ],
   "note": "Bytes and the protobuf wire format are parameters; parsing undoes serialising is a hypothesis."
  },
  {
   "property": "C61",
   "status": "proved",
   "theorems": [
    "align_latest_runs",
    "align_latest_raises",
    "align_latest_limited",
    "align_latest_no_iterations",
    "align_latest_lost",
    "align_latest_finds_drift"
   ],
   "note": "Exact reals; argsort and the noise are oracles. The claim as first written (norm at most max_shift) needs the NaN exception, which align_latest_lost characterises."
  },
  {
   "property": "C62",
   "status": "proved",
   "theorems": [
    "align_latest_init_untouched",
    "align_latest_init_overwritten",
    "align_latest_calls_independent_refuted"
   ],
   "note": "Independence of calls is refuted."
  },
  {
   "property": "C63",
   "status": "proved",
   "theorems": [
    "naive_merge_groups",
    "naive_merge_conserves",
    "naive_merge_raises",
    "naive_merge_single"
   ],
   "note": "Arrays without NaN; different arrays in memory."
  },
  {
   "property": "C64",
   "status": "proved",
   "theorems": [
    "naive_merge_groups",
    "naive_merge_pure_refuted",
    "naive_merge_inputs_unchanged_refuted"
   ],
   "note": "Purity is refuted; naive_merge_groups says which arrays hold what afterwards."
  },
  {
   "property": "C65",
   "status": "proved",
   "theorems": [
    "clique_merge_clumping",
    "clique_merge_apart",
    "clique_merge_inside",
    "clique_merge_in_box",
    "clique_merge_counts",
    "clique_merge_conserves",
    "clique_merge_conserves_refuted"
   ],
   "note": "networkx.find_cliques is an oracle with a proved instance."
  },
  {
   "property": "C66",
   "status": "proved",
   "theorems": [
    "propagate_atomic_numbers_spec",
    "propagate_atomic_numbers_default",
    "propagate_keeps_silicon_refuted"
   ],
   "note": ""
  },
  {
   "property": "C67",
   "status": "proved",
   "theorems": [
    "propagate_graphene_classes_spec",
    "propagate_changes_only_loose_ends",
    "propagate_two_colours",
    "get_lattice_clusterer_spec",
    "classify_lattice_types_spec",
    "classify_lattice_types_errors"
   ],
   "note": "KMeans is an oracle labelling rows of angles 0 or 1."
  },
  {
   "property": "C68",
   "status": "proved",
   "theorems": [
    "first_observation",
    "first_observation_nan",
    "apply_shift_spec",
    "history_bounded",
    "history_in_order",
    "out_of_order_is_stuck",
    "failed_first_observation_sticks",
    "reported_drift_limited",
    "observation_merged",
    "observation_merged_by_cliques",
    "observation_returns",
    "observation_lost",
    "lost_stays_lost",
    "observing_again_returns",
    "observations_keep_arrays_refuted",
    "default_observation"
   ],
   "note": "Merging with accumulate_merged_observations is covered by history_bounded and reported_drift_limited, not by observation_merged; observation_returns is about merging by proximity without accumulation."
  },
  {
   "property": "C69",
   "status": "proved",
   "theorems": [
    "rotate_dataset_copies",
    "augment_copies",
    "augment_no_reflection",
    "augment_rows",
    "copy_keeps",
    "augment_closed",
    "turned_by_unique",
    "turned_keeps",
    "turned_compose",
    "turned_zero",
    "turned_described",
    "mirror_unique",
    "mirror_involution",
    "mirror_keeps",
    "mirror_described",
    "mirror_turn",
    "augment_raises",
    "sample_from_prior_row",
    "synthetic_rates_refuted",
    "mirror_other_labels"
   ],
   "note": "Exact reals for positions and rates; draws of the synthetic data are inputs. Spec in Spec/Augmenting.v. Not modelled: the random-network mode of the synthetic data."
  },
  {
   "property": "C70",
   "status": "proved",
   "theorems": [
    "split_partition",
    "split_size",
    "bootstrap_parts",
    "bootstrap_raises",
    "bootstrap_single_refuted"
   ],
   "note": "The permutation and the draws are inputs; the set order of the out-of-bag points is any permutation. The product n * fraction is rounded to binary64; sizes up to 2^53."
  },
  {
   "property": "C71",
   "status": "proved",
   "theorems": [
    "standardize_frame",
    "standardize_keeps_distances",
    "order_restores",
    "standardize_invariant",
    "direction_unique",
    "standardize_raises"
   ],
   "note": "np.argsort is any function meeting argsort_ok (ties in any order). Exact reals."
  },
  {
   "property": "C72",
   "status": "proved",
   "theorems": [
    "adjacent_pairs",
    "each_trajectory_alone",
    "transition_between_unique",
    "reading_ends",
    "convert_writes",
    "convert_unlabelled_refuted"
   ],
   "note": "Records and wire format as in C60."
  },
  {
   "property": "C73",
   "status": "proved",
   "theorems": [
    "align_pass",
    "alignment_keeps",
    "moved_keeps_size",
    "no_iterations",
    "last_step_full",
    "one_iteration",
    "last_iteration",
    "alignment_finds_truth",
    "alignment_starts_afresh",
    "aligned_independently",
    "alignment_raises",
    "align_script_writes",
    "align_directory_refuted",
    "default_alignment",
    "align_script_raises",
    "default_steps"
   ],
   "note": "For any aligner (a state, a reset and a call). Exact reals, finite shifts."
  },
  {
   "property": "C74",
   "status": "proved",
   "theorems": [
    "nearest_neighbors3_exact",
    "nearest_neighbour_contract_satisfiable",
    "nearest_neighbors3_duplicates_refuted"
   ],
   "note": ""
  },
  {
   "property": "C75",
   "status": "proved",
   "theorems": [
    "human_prior_peak",
    "human_prior_aims_at_neighbour_refuted",
    "human_prior_any",
    "human_prior_list",
    "human_prior_bounds"
   ],
   "note": ""
  },
  {
   "property": "C76",
   "status": "proved",
   "theorems": [
    "exposure_runs_clocks",
    "recording_is_transparent",
    "short_exposures_never_raise",
    "zero_rates"
   ],
   "note": ""
  },
  {
   "property": "C77",
   "status": "proved",
   "theorems": [
    "canonical_sheet",
    "canonical_sheet_fails"
   ],
   "note": ""
  },
  {
   "property": "C78",
   "status": "proved",
   "theorems": [
    "mixture_eq_exact",
    "mixture_eq_reflexive_symmetric",
    "mixture_eq_transitive_refuted"
   ],
   "note": ""
  },
  {
   "property": "C79",
   "status": "proved",
   "theorems": [
    "image_parameters_ranges",
    "noisy_image_parameters_ranges",
    "image_parameters_drawn"
   ],
   "note": ""
  },
  {
   "property": "C80",
   "status": "proved",
   "theorems": [
    "find_argmax_best",
    "find_argmax_errors",
    "new_greedy_spec",
    "new_greedy_nothing",
    "uniform_agent_bounds",
    "uniform_agent_drawn"
   ],
   "note": ""
  },
  {
   "property": "C81",
   "status": "proved",
   "theorems": [
    "stack_evaluates"
   ],
   "note": "Same conditions on draws and passes as C44."
  },
  {
   "property": "C82",
   "status": "proved",
   "theorems": [
    "results_reproduce"
   ],
   "note": ""
  },
  {
   "property": "C83",
   "status": "proved",
   "theorems": [
    "video_frames_show",
    "video_time_stamps",
    "video_images",
    "video_saved",
    "video_not_saved",
    "timedelta_format",
    "centred_on_silicon",
    "image_panel",
    "frame_not_drawn"
   ],
   "note": "The data that is plotted; drawing is not modelled."
  },
  {
   "property": "C84",
   "status": "proved",
   "theorems": [
    "evaluation_videos",
    "stack_films",
    "nothing_to_film",
    "shipped_adapters_one_control"
   ],
   "note": ""
  },
  {
   "property": "C85",
   "status": "proved",
   "theorems": [
    "logging_is_transparent",
    "logged_outcome_is_shown",
    "shipped_features_position_only"
   ],
   "note": ""
  },
  {
   "property": "C86",
   "status": "proved",
   "theorems": [
    "kept_means",
    "left_out_means",
    "criteria_suffice",
    "processing_raises",
    "labels_in_range",
    "label_one",
    "everything_counted",
    "counts_add_up",
    "scene_motion",
    "plotting_fails_refuted"
   ],
   "note": "Neighbour search and argsort are any functions meeting knn_ok and argsort_ok; scene_motion needs a search that looks at distances only. Exact reals; np.asarray of a shapely point is its coordinates (shapely < 2)."
  },
  {
   "property": "C87",
   "status": "proved",
   "theorems": [
    "files_in_order",
    "other_sources",
    "unreadable_file",
    "stacking",
    "stacking_raises",
    "prepared",
    "preparing_raises"
   ],
   "note": "Records and wire format as in C60; a missing number is found when the array is converted."
  },
  {
   "property": "C88",
   "status": "proved",
   "theorems": [
    "outcomes_distribution",
    "loss_is_likelihood",
    "loss_weights",
    "no_transition_no_class_loss",
    "returned_rates_refuted",
    "loss_floor",
    "losses_nonneg",
    "truth_minimises_loss",
    "loss_above"
   ],
   "note": "Exact reals. The network is any function."
  },
  {
   "property": "C89",
   "status": "proved",
   "theorems": [
    "mlp_evaluates",
    "ensemble_rates",
    "rates_give_outcomes",
    "ensemble_deterministic",
    "single_model_rates"
   ],
   "note": "Exact reals. Of the external layers: the contract layers_ok (normalisation keeps rows and, outside training, state; without dropout the key is unused; n + 1 outputs), met by ensemble_nonvacuous."
  },
  {
   "property": "C90",
   "status": "proved",
   "theorems": [
    "step_optimises",
    "epoch_batches",
    "epoch_raises",
    "training_epochs",
    "test_data_unused"
   ],
   "note": "Gradient and optimizer are one external function of the loss; permutation and split are external with contracts (a permutation, as many keys as asked for)."
  },
  {
   "property": "C91",
   "status": "proved",
   "theorems": [
    "dataset_splits",
    "dataset_splits_succeed",
    "dataset_splits_raise",
    "dataset_splits_no_context"
   ],
   "note": "Draws are external with contracts (in range, permutation). The cut of the test sets can leave a row with only some of its symmetric copies."
  },
  {
   "property": "C92",
   "status": "proved",
   "theorems": [
    "predict_context_refuted",
    "predict_scores",
    "predict_succeeds",
    "predict_ensemble_refuted",
    "predict_stale",
    "predict_rates_refuted",
    "save_load",
    "save_fails",
    "save_single",
    "load_raises",
    "load_model_only",
    "load_chooses",
    "apply_keys",
    "apply_keys_fresh",
    "package_fixed",
    "package_plain"
   ],
   "note": "A packaged model is its traced parameters, state and key. File contents are values."
  },
  {
   "property": "C93",
   "status": "proved",
   "theorems": [
    "ensemble_training",
    "distill_targets_rates",
    "distill_loss_zero",
    "distill_single",
    "synthetic_inputs",
    "distill_moments",
    "new_predictor_models",
    "std_zero",
    "distill_step_keys",
    "distill_epoch_keys",
    "distill_key"
   ],
   "note": "Exact reals; normals, initialisation and optimizer are external."
  },
  {
   "property": "C94",
   "status": "proved",
   "theorems": [
    "crop_shape",
    "crop_succeeds",
    "crop_pans",
    "crop_shows",
    "crop_same",
    "crop_vanishes",
    "crop_exact",
    "crop_oblong_refuted"
   ],
   "note": "The nearest-neighbour resize is modelled by its documented formula. The expectation for oblong fields of view is refuted."
  },
  {
   "property": "C95",
   "status": "proved",
   "theorems": [
    "reset_blank",
    "reset_zero",
    "call_answer",
    "failed_call",
    "memory",
    "memory_after_reset",
    "first_call",
    "call_succeeds",
    "wrong_size_stuck",
    "preprocess_fails",
    "preprocess_normalizes",
    "preprocess_flat",
    "script_independent",
    "script_calls",
    "blank_history",
    "script_history",
    "wrong_size_error"
   ],
   "note": "Network, equalisation and OpenCV are arbitrary functions; one channel; exact reals."
  },
  {
   "property": "C96",
   "status": "proved",
   "theorems": [
    "detected",
    "detected_sound",
    "detected_complete",
    "detected_margin",
    "usual_margin",
    "softmax_classes",
    "softmax_probabilities",
    "detected_oblong_refuted"
   ],
   "note": "Erosion, contours and moments are one arbitrary function; exact reals. The expectation for oblong images is refuted."
  },
  {
   "property": "C97",
   "status": "proved",
   "theorems": [
    "hybrid_answers",
    "hybrid_places",
    "hybrid_first",
    "hybrid_settings"
   ],
   "note": "The first two for any post-processing, the last for the filter as it is built."
  },
  {
   "property": "C98",
   "status": "proved",
   "theorems": [
    "bits_ieee",
    "probability_value",
    "detector_outcomes",
    "detector_empty",
    "corner_atoms",
    "atom_places",
    "uncertain_silicon_refuted",
    "mask_displaced_refuted",
    "byte_wraps"
   ],
   "note": "float32 probabilities by their bits; the distance transform, threshold, contours and moments are one arbitrary function; OpenCV morphology with its default anchor. The expectations that silicon off carbon is found and that the mask covers its carbon are refuted."
  },
  {
   "property": "C99",
   "status": "proved",
   "theorems": [
    "scale_factor",
    "scale_factor_nan",
    "middle_mean_robust",
    "scale_exact"
   ],
   "note": "Exact reals; NaN (fewer than two atoms) is None."
  },
  {
   "property": "C100",
   "status": "proved",
   "theorems": [
    "mask_pixels",
    "mask_oblong",
    "mask_graphene",
    "default_mask"
   ],
   "note": "Exact reals. The expectation that other than square sizes work is refuted by mask_oblong."
  },
  {
   "property": "C101",
   "status": "proved",
   "theorems": [
    "clean_image",
    "margin_pixels",
    "clean_image_raises",
    "clean_image_nan",
    "single_atom_blob",
    "round_blob_refuted",
    "margin_refuted"
   ],
   "note": "Exact reals; scipy.ndimage.gaussian_filter modelled with its truncation; NaN is None."
  },
  {
   "property": "C102",
   "status": "proved",
   "theorems": [
    "jitter_rolls",
    "poisson_counts",
    "poisson_raises",
    "salt_and_pepper",
    "contrast_power",
    "contrast_raises",
    "uniform_noise",
    "exponential_noise",
    "gaussian_noise",
    "blur_mean",
    "nan_spreads",
    "stem_image_no_atoms",
    "stem_image",
    "stem_image_stages",
    "sampled_parameters_image"
   ],
   "note": "The distributions are those of an arbitrary generator with the contract sampler_ok, Poisson draws an arbitrary function; the last step, equalize_adapthist, is an arbitrary function of the image described."
  },
  {
   "property": "C103",
   "status": "proved",
   "theorems": [
    "download_history",
    "download_fresh",
    "download_kept",
    "download_retry",
    "download_complete_refuted",
    "detector_fresh",
    "detector_failed",
    "detector_cut",
    "aligner_unpacks",
    "aligner_kept",
    "aligner_failed"
   ],
   "note": "A run is its list of writes, cut anywhere; zipfile and tf.saved_model.load are arbitrary functions; archives hold files of their own model only. Completeness is refuted."
  },
  {
   "property": "C104",
   "status": "proved",
   "theorems": [
    "microscope_names",
    "train_names",
    "eval_registration",
    "eval_names"
   ],
   "note": "Callables are represented by data, see Model/Registry.v."
  },
  {
   "property": "C105",
   "status": "proved",
   "theorems": [
    "random_experiments",
    "greedy_experiments",
    "learned_experiments",
    "greedy_bounds_refuted",
    "train_experiments_run",
    "random_evaluations_run",
    "greedy_given_picture",
    "made_agent_draws",
    "default_image_seconds"
   ],
   "note": "Trained models are arbitrary functions of the features; places are rounded to float32 where the code does so; drawing pictures succeeds for the experiments that need them. The expectation about the bounds of greedy actions is refuted."
  },
  {
   "property": "C106",
   "status": "proved",
   "theorems": [
    "training_uninterrupted",
    "training_keeps",
    "training_resumed",
    "training_completed",
    "training_epochs",
    "training_one_crash",
    "training_crash_refuted"
   ],
   "note": "An epoch is an arbitrary function of the state; saving a checkpoint is atomic and does nothing for a step that is not after the latest one, as documented by orbax; what is restored is what was saved (for the graph network see C108). Equality with an uninterrupted run is refuted."
  },
  {
   "property": "C107",
   "status": "proved",
   "theorems": [
    "package_best",
    "package_trained",
    "package_aligner_installs",
    "package_detector_refuted",
    "unboxed"
   ],
   "note": "tf.saved_model.save is an arbitrary list of files, and unzipping gives what was zipped. That a packaged detector can be installed is refuted."
  },
  {
   "property": "C108",
   "status": "proved",
   "theorems": [
    "name_round_trip",
    "saved_name_clean",
    "checkpoint_round_trip",
    "checkpoint_contents",
    "checkpoint_keys",
    "checkpoint_loses_refuted"
   ],
   "note": "str.replace as a scan from left to right; dicts in the order of insertion. Only the keys the code renames are keys here: those inside a module are part of the value."
  },
  {
   "property": "C109",
   "status": "proved",
   "theorems": [
    "dataset_loaded",
    "dataset_without_readout",
    "dataset_converted",
    "short_dataset_empty",
    "dataset_convertible",
    "positions_in_view",
    "labels_scaled",
    "beam_converted_twice_refuted",
    "frame_missing_key",
    "frame_lookup",
    "conversion_missing_frame"
   ],
   "note": "Findings: a dataset of up to three frames is uploaded as an empty trajectory; a frame without atoms or without dopants raises and stops the whole upload. Files are modelled by what they contain; JSON decoding is not modelled."
  },
  {
   "property": "C110",
   "status": "proved",
   "theorems": [
    "blob_names",
    "blob_unreadable_refuted",
    "blob_names_collide_refuted",
    "upload_result",
    "upload_complete",
    "upload_crash",
    "upload_status",
    "upload_reads",
    "character_classes",
    "lower_case",
    "nameless_dataset"
   ],
   "note": "The bucket is a function from names to records; ASCII names. The conversion to underscores follows inflection.underscore as two scans."
  },
  {
   "property": "C111",
   "status": "proved",
   "theorems": [
    "detection_pixels",
    "alignment_pixels",
    "right_size",
    "no_pixels",
    "label_targets",
    "labels_told_apart",
    "processes_share",
    "seen_as_trained"
   ],
   "note": "tf.image.resize with nearest neighbours, tf.one_hot and tf.image.convert_image_dtype are modelled exactly over the reals; loading from disk, shuffling and batching (grain) are not modelled. That a process reads every n-th example is a hypothesis of processes_share about grain."
  },
  {
   "property": "C112",
   "status": "proved",
   "theorems": [
    "epoch_averages",
    "detection_epoch_averages",
    "metrics_forgotten",
    "pixel_loss",
    "detection_batch",
    "reported_accuracy",
    "alignment_accuracy_refuted",
    "alignment_accuracy_zero",
    "drift_losses",
    "final_step_reported",
    "alignment_losses",
    "detection_report"
   ],
   "note": "jax.grad and the optimizer are arbitrary functions; real numbers instead of float32; logits and drifts are given the shape of the targets (the reshaping is not modelled); sharding over devices is not modelled."
  },
  {
   "property": "C113",
   "status": "proved",
   "theorems": [
    "learning_rate_shape",
    "learning_rate_error",
    "idle_steps",
    "last_batches_idle_refuted",
    "examples_seen",
    "graph_examples_refuted",
    "adamw_step"
   ],
   "note": "optax schedules as documented: decay_steps of warmup_cosine_decay_schedule includes the warm-up, and adamw multiplies its whole update, with the weight decay, by the rate."
  },
  {
   "property": "C114",
   "status": "proved",
   "theorems": [
    "graph_losses",
    "padding_ignored",
    "no_loss",
    "default_losses",
    "errors_count_padding_refuted",
    "batch_entries"
   ],
   "note": "Real numbers instead of float32; predictions are a function of the parameters and an example (jax.vmap); NaN as absence of a value."
  },
  {
   "property": "C115",
   "status": "proved",
   "theorems": [
    "graph_network",
    "dense_refuted",
    "points_renamed",
    "capacity_irrelevant",
    "only_displacements",
    "training_graph",
    "overflow_unnoticed_refuted",
    "fresh_neighbors",
    "column_sums",
    "features_mismatch",
    "graph_errors"
   ],
   "note": "jraph, haiku and jax_md are not in the repository: message passing and to_jraph are modelled as documented, MLPs with normalization as arbitrary functions of a row, and what jax_md finds as neighbors is the hypothesis finds_neighbors. Sums over the reals."
  },
  {
   "property": "C116",
   "status": "proved",
   "theorems": [
    "unet_sizes",
    "global_local_sizes",
    "no_features",
    "unet_reach",
    "global_local_reach",
    "default_unet",
    "conv_values",
    "transpose_values",
    "pool_values",
    "concatenate_values",
    "levels",
    "ends"
   ],
   "note": "flax layers are not in the repository: SAME padding for convolutions of odd size, VALID pooling and jax.lax.conv_transpose with SAME padding are modelled as documented. Images without pixels are outside of the claim. Taps are arbitrary functions of a pixel, which includes the linear ones; LayerNorm and the activation act on each pixel."
  },
  {
   "property": "C117",
   "status": "proved",
   "theorems": [
    "sampled_ranges",
    "sampled_every",
    "sampled_undefined",
    "sampled_usable",
    "rate_function_round_trip",
    "rate_function_file",
    "rate_function_read",
    "rate_function_crash",
    "rate_function_crash_refuted"
   ],
   "note": "msgpack with msgpack_numpy is external: that unpacking gives back what was packed is a premise, as is that the pieces the operating system writes make up the bytes. Arithmetic is exact. No ancestor of the directory is a file."
  },
  {
   "property": "C118",
   "status": "proved",
   "theorems": [
    "rate_contours",
    "rate_plot_errors",
    "rate_line",
    "rate_arc",
    "arc_angle_refuted",
    "mixture_hops",
    "rate_maxima",
    "rate_visual_errors",
    "data_plot",
    "data_plot_errors"
   ],
   "note": "Matplotlib and seaborn are external: the model returns the data handed to them. The order in which a Python set is gone through is an oracle. Arithmetic is exact; neighbours other than the first are at least 0.01 away from it for the line plot."
  },
  {
   "property": "C119",
   "status": "proved",
   "theorems": [
    "classifier_choice",
    "classifiers_written",
    "classifiers_stop",
    "classifier_unknown",
    "sklearn_mlp_refuted",
    "classifier_rates",
    "classifier_plots",
    "classifier_plots_fail",
    "context_columns",
    "augmented_states",
    "classifier_run_no_data",
    "classifier_run",
    "classification_network_refuted",
    "rate_network_saved",
    "rate_network_single",
    "ensemble_not_saved",
    "classifier_run_stops"
   ],
   "note": "scikit-learn is external: fitting and probabilities are oracles with the contract in Spec/RateTraining.v. Networks are oracles whose number of inputs is set when they are created and kept by training; rows of another length are an error. The plots of the metrics are left out."
  },
  {
   "property": "C120",
   "status": "proved",
   "theorems": [
    "microscope_frame_drawn",
    "drawn_atoms",
    "material_frame_drawn",
    "frame_panels",
    "frame_without_atoms",
    "outline_closed",
    "render_shows",
    "render_goal_visible",
    "render_never_raises",
    "render_after_reset",
    "render_beam"
   ],
   "note": "A drawing is the list of calls on the axes; turning it into pixels is matplotlib and not modelled. The expectation that the beam is drawn where it was is false after the field of view moved; render_beam says exactly when."
  },
  {
   "property": "C121",
   "status": "proved",
   "theorems": [
    "attribute_forwarded",
    "private_not_forwarded",
    "attribute_missing",
    "has_attribute_exact",
    "attribute_set",
    "set_through_wrapper_refuted",
    "wrapper_transparent",
    "no_limit_transparent",
    "nested_limits",
    "shipped_resets_first",
    "environment_reached"
   ],
   "note": "Python objects are modelled as the attributes that ordinary lookup finds plus the wrapped object. Histories are for environments whose reset returns a first time step, which shipped_resets_first shows of the shipped ones."
  },
  {
   "property": "C122",
   "status": "proved",
   "theorems": [
    "eval_command_unknown",
    "eval_command_returns",
    "eval_command_complete",
    "videos_change_nothing",
    "random_eval_command",
    "eval_command_limit"
   ],
   "note": "Loading an agent, the clock and writing a movie are oracles. Numbers written with two decimals are rounded exactly rather than through binary floating point, hence within half a hundredth."
  },
  {
   "property": "C123",
   "status": "proved",
   "theorems": [
    "specs_relayed",
    "observations_conform",
    "specs_kept"
   ],
   "note": "cv2.resize is an oracle with the contract that it returns 128 rows of 128 32 bit floats. The answered part is for dwell times within [0, 10] seconds, which holds for the registered training and evaluation experiments."
  },
  {
   "property": "C124",
   "status": "proved",
   "theorems": [
    "unet_layout",
    "global_local_layout",
    "parameters_distinct",
    "unet_determined",
    "global_local_determined",
    "default_levels",
    "aligner_determined",
    "shipped_parameters"
   ],
   "note": "The names and shapes that flax gives parameters are written from its documentation, as it is not in the repository."
  },
  {
   "property": "C125",
   "status": "proved",
   "theorems": [
    "prior_data",
    "network_data",
    "synthetic_ranges",
    "synthetic_modes",
    "synthetic_clock"
   ],
   "note": "Random keys are trees: that JAX gives different keys different numbers, and that numbers have their distribution, is not part of the model. The network is any function of its input."
  },
  {
   "property": "C126",
   "status": "proved",
   "theorems": [
    "model_read_once",
    "model_read_late",
    "new_object",
    "use_reads",
    "reload_model",
    "cut_detector"
   ],
   "note": "tf.saved_model.load is any function of the files below the path. One thread."
  },
  {
   "property": "C127",
   "status": "proved",
   "theorems": [
    "made_observation",
    "made_sheet"
   ],
   "note": "The renderer is any function; create_simple_environment is C130."
  },
  {
   "property": "C128",
   "status": "proved",
   "theorems": [
    "stacked_members",
    "stacked_index",
    "stacked_is_list",
    "stack_errors",
    "index_unstacked"
   ],
   "note": "Arrays of one type of numbers, in row-major order. This is why the other theorems about ensembles may keep a list of members."
  },
  {
   "property": "C129",
   "status": "proved",
   "theorems": [
    "fov_text",
    "fov_text_identifies"
   ],
   "note": "Real numbers have no negative zero."
  },
  {
   "property": "C130",
   "status": "proved",
   "theorems": [
    "train_environment_runs",
    "train_environment_repeats",
    "simple_environment_runs"
   ],
   "note": "Exponential draws exceed 1/2000000 and the neighbour search answers by distance, as in C105."
  }
 ]
}
