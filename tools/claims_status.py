S('C01', 'proved', 'frame_round_trip_microscope frame_round_trip_material')
S('C02', 'proved', 'microscope_to_material_exact material_to_microscope_exact frame_conversion_errors')
S('C03', 'proved', 'microscope_frame_corners in_view_iff_unit_square')
S('C04', 'proved', 'resize_exact zoom_exact zoom_nonpositive zoom_compose zoom_inverse')
S('C05', 'proved', 'shift_is_translation shift_compose shift_inverse shift_grid_and_control')
S('C06', 'proved', 'get_atoms_in_bounds_exact get_atoms_in_bounds_idempotent get_atoms_in_bounds_monotone')
S('C18', 'proved', 'grid_eq_reordering grid_eq_meaning grid_eq_sufficient grid_eq_sizes grid_eq_symmetric_refuted grid_hash_reordering grid_hash_consistent_refuted', 'The two naive expectations (symmetry, hash consistency) are refuted by witnesses valid for every tie-breaking of the search.')
S('C20', 'proved', 'rotation_isometry rotation_group rotation_counter_clockwise angles_are_polar_angles rotate_by_minus_angle')
S('C54', 'proved', 'stored_coordinate_is_nearest_float grid_proto_round_trip control_proto_round_trip fov_proto_round_trip observation_proto_round_trip trajectory_proto_round_trip second_round_trip_identity')
S('C55', 'proved', 'times_below_16s_exact times_above_16s_refuted time_fields')
S('C56', 'proved', 'voltage_and_current_round_trip unset_voltage_refuted')
S('C57', 'proved', 'transition_proto_exact unlabelled_images_not_serialisable')
S('C58', 'proved', 'drift_proto_exact small_drift_lost')
S('C59', 'proved', 'cumulated_drift_is_sum apply_to_observation_exact drift_moves_material_view drift_shifts_controls_refuted')
S('C68', 'proved', 'first_observation first_observation_nan apply_shift_spec history_bounded history_in_order out_of_order_is_stuck failed_first_observation_sticks reported_drift_limited observation_merged observation_merged_by_cliques observation_returns observation_lost lost_stays_lost observing_again_returns observations_keep_arrays_refuted default_observation', 'Merging with accumulate_merged_observations is covered by history_bounded and reported_drift_limited, not by observation_merged; observation_returns is about merging by proximity without accumulation.')
S('C74', 'proved', 'nearest_neighbors3_exact nearest_neighbour_contract_satisfiable nearest_neighbors3_duplicates_refuted')

S('C07', 'proved', 'material_view_exact material_view_unit_square material_view_converts_back')
S('C08', 'proved', 'reset_material reset_without_atoms')
S('C09', 'proved', 'shipped_rate_functions_hop exposures_conserve_sheet')
S('C10', 'proved', 'exposure_is_chain_of_hops hop_moves_silicon shipped_rate_functions_hop')
S('C11', 'proved', 'transition_times last_transition_is_final_material no_dwell_no_effect')
S('C12', 'proved', 'exposure_terminates exposure_diverges')
S('C14', 'proved', 'simple_rate_values simple_rate_errors simple_rate_order simple_rate_translation')
S('C15', 'proved', 'predictor_results predictor_no_silicon predictor_too_few_atoms')
S('C16', 'proved', 'mixture_rates mixture_rate_bounds single_component_peak mixture_without_weight mixture_max_rate_refuted', 'The naive bound by max_rate is refuted with two equal components, for every neighbour search meeting its contract.')
S('C17', 'proved', 'single_silicon_missing single_silicon_nearest silicon_positions_exact')
S('C19', 'proved', 'sheet_atoms sheet_spacing sheet_interior_atoms sheet_complete_atoms generated_sheet graphene_sheet_spacing generated_sheet_drawn')
S('C75', 'proved', 'human_prior_peak human_prior_aims_at_neighbour_refuted human_prior_any human_prior_list human_prior_bounds')
S('C76', 'proved', 'exposure_runs_clocks recording_is_transparent short_exposures_never_raise zero_rates')
S('C77', 'proved', 'canonical_sheet canonical_sheet_fails')
S('C78', 'proved', 'mixture_eq_exact mixture_eq_reflexive_symmetric mixture_eq_transitive_refuted')
S('C13', 'proved', 'material_use_before_reset new_material_not_reset material_use_after_reset simulator_use_before_reset simulator_use_after_reset simulator_without_atoms', 'After reset RuntimeError can only come from the rate function or the image renderer, hence their hypotheses.')
S('C21', 'proved', 'silicon_always_in_safe_area')
S('C22', 'proved', 'fov_square_of_constant_size fov_moves_only_to_recentre')
S('C23', 'proved', 'elapsed_time_of_reset elapsed_time_of_step')
S('C24', 'proved', 'observation_shows_material')
S('C25', 'proved', 'step_complete reset_complete observers_agree')
S('C26', 'proved', 'event_log_replays event_log_accounts')
S('C27', 'proved', 'voltage_and_current_ignored voltage_and_current_reported')
S('C28', 'proved', 'add_then_remove remove_unregistered add_and_remove_counts registered_twice')
S('C79', 'proved', 'image_parameters_ranges noisy_image_parameters_ranges image_parameters_drawn')
S('C29', 'proved', 'controls_in_view direct_adapter_result direct_adapter_errors delta_adapter_result delta_adapter_errors relative_adapter_result material_frame_adapter_result advertised_actions_accepted advertised_bounds stateless_resets')
S('C30', 'proved', 'direct_adapter_result delta_adapter_result relative_dwell_times dwell_time_monotone relative_dwell_monotone relative_defaults')
S('C31', 'proved', 'relative_needs_one_silicon relative_missing_dwell relative_adapter_errors material_frame_adapter_errors', 'IndexError is stated for a non-empty action on a field of view with an extent; the other errors are in the *_errors theorems.')
S('C32', 'proved', 'relative_aim material_frame_aim')
S('C33', 'proved', 'delta_walk delta_unclipped running_sums_last delta_in_view delta_adapter_reset')
S('C34', 'proved', 'goal_reset_chooses goal_reset_errors goal_is_an_atom fresh_goal')
S('C35', 'proved', 'goal_outcome goal_outcome_errors goal_reward_range current_goal_position')
S('C36', 'proved', 'goal_framing_independent')
S('C37', 'proved', 'pristine_layout material_frame_layout features_length vector_feature_errors features_need_silicon_goal image_features_spec who_needs_images', 'Entries are rounded to float32; the norm is 1 before rounding. The layout theorems need the silicon position to be occupied by one atom only.')
S('C38', 'proved', 'greedy_action greedy_errors greedy_distance default_greedy_action')
S('C80', 'proved', 'find_argmax_best find_argmax_errors new_greedy_spec new_greedy_nothing uniform_agent_bounds uniform_agent_drawn')

S('C39', 'proved', 'env_protocol env_step_returns env_step_starts env_reset_returns env_step_raises env_reset_raises env_step_ends created_environment created_environment_lives created_shows', 'For any simulator, adapter, features and goal; the exact result and state of every call.')
S('C40', 'proved', 'env_step_pays env_start_pays env_rewards env_return adapters_never_negative')
S('C41', 'proved', 'seeding_reproduces shipped_start_afresh seeding_adapters', 'The generator is an abstract state machine; both environments have the same rate function, columns and image duration, as these are configuration. The first reset after seeding must not raise.')
S('C42', 'proved', 'failed_reset_state failed_step_state failed_reset_not_retried failed_goal_reset_keeps_goal two_columns_raise')
S('C43', 'proved', 'step_limit_relays step_limit_bounds step_limit_protocol no_limit_transparent step_limit_errors dune_resets_first default_limit no_step_limit step_limit_below_one step_limit_one_ends')
S('C44', 'proved', 'stack_never_raises shipped_rates_steady shipped_features_describe shipped_adapters_accept shipped_stack_never_raises shipped_stack_sessions two_columns_raise', 'Exponential draws above half a microsecond (smaller ones can keep the exposure loop from ending, see C15) and a bound on the passes of that loop of at least the exposure time in microseconds; if the features need an image, the renderer must return one.')

S('C45', 'proved', 'evaluate_returns evaluate_raises evaluate_in_order evaluate_faithful evaluation_ends evaluation_may_not_end shipped_suites shipped_suite_sizes', 'For any agent and environment; a bound on the steps of one episode, which evaluation_ends shows to be enough if every step takes time.')
S('C46', 'proved', 'timeout_respected late_reset_means_no_action')
S('C47', 'proved', 'aggregation_raises_on_nothing aggregation_averages aggregation_of_times aggregation_ignores_order aggregation_ignores_failures evaluated_averages_are_numbers')
S('C48', 'proved', 'evaluate_observers evaluate_observers_limited')
S('C81', 'proved', 'stack_evaluates', 'Same conditions on draws and passes as C44.')
S('C82', 'proved', 'results_reproduce')
S('C83', 'proved', 'video_frames_show video_time_stamps video_images video_saved video_not_saved timedelta_format centred_on_silicon image_panel frame_not_drawn', 'The data that is plotted; drawing is not modelled.')
S('C84', 'proved', 'evaluation_videos stack_films nothing_to_film shipped_adapters_one_control')
S('C49', 'proved', 'agent_shows first_exactly_once writing_down_is_harmless rescan_step decided_step step_passes_on reset_agent')
S('C50', 'proved', 'every_call_is_history flush_writes one_flush_trajectories step_records_once one_flush_episode_ids flush_raises exit_flushes trajectories_file_round_trip')
S('C51', 'proved', 'episode_ids_refuted one_flush_episode_ids episode_ids_agree_iff', 'The claim is refuted; the ids that are written are characterised exactly.')
S('C52', 'proved', 'flush_again flush_writes step_records_once')
S('C53', 'proved', 'rescan_raises_through_logger logger_returns_controls images_do_not_rescan')
S('C60', 'proved', 'record_file_names record_file_strings path_parts write_records_ok write_records_raises write_unknown_extension read_unknown_extension read_missing_file read_raw write_read_round_trip read_unparsable trajectories_file_round_trip', 'Bytes and the protobuf wire format are parameters; parsing undoes serialising is a hypothesis.')
S('C85', 'proved', 'logging_is_transparent logged_outcome_is_shown shipped_features_position_only')

S('C61', 'proved', 'align_latest_runs align_latest_raises align_latest_limited align_latest_no_iterations align_latest_lost align_latest_finds_drift', 'Exact reals; argsort and the noise are oracles. The claim as first written (norm at most max_shift) needs the NaN exception, which align_latest_lost characterises.')
S('C62', 'proved', 'align_latest_init_untouched align_latest_init_overwritten align_latest_calls_independent_refuted', 'Independence of calls is refuted.')
S('C63', 'proved', 'naive_merge_groups naive_merge_conserves naive_merge_raises naive_merge_single', 'Arrays without NaN; different arrays in memory.')
S('C64', 'proved', 'naive_merge_groups naive_merge_pure_refuted naive_merge_inputs_unchanged_refuted', 'Purity is refuted; naive_merge_groups says which arrays hold what afterwards.')
S('C65', 'proved', 'clique_merge_clumping clique_merge_apart clique_merge_inside clique_merge_in_box clique_merge_counts clique_merge_conserves clique_merge_conserves_refuted', 'networkx.find_cliques is an oracle with a proved instance.')
S('C66', 'proved', 'propagate_atomic_numbers_spec propagate_atomic_numbers_default propagate_keeps_silicon_refuted')
S('C67', 'proved', 'propagate_graphene_classes_spec propagate_changes_only_loose_ends propagate_two_colours get_lattice_clusterer_spec classify_lattice_types_spec classify_lattice_types_errors', 'KMeans is an oracle labelling rows of angles 0 or 1.')

S('C69','proved','rotate_dataset_copies augment_copies augment_no_reflection augment_rows copy_keeps augment_closed turned_by_unique turned_keeps turned_compose turned_zero turned_described mirror_unique mirror_involution mirror_keeps mirror_described mirror_turn augment_raises sample_from_prior_row synthetic_rates_refuted mirror_other_labels',
  'Exact reals for positions and rates; draws of the synthetic data are inputs. Spec in Spec/Augmenting.v. Not modelled: the random-network mode of the synthetic data.')
S('C70','proved','split_partition split_size bootstrap_parts bootstrap_raises bootstrap_single_refuted',
  'The permutation and the draws are inputs; the set order of the out-of-bag points is any permutation. The product n * fraction is rounded to binary64; sizes up to 2^53.')
S('C71','proved','standardize_frame standardize_keeps_distances order_restores standardize_invariant direction_unique standardize_raises',
  'np.argsort is any function meeting argsort_ok (ties in any order). Exact reals.')
S('C72','proved','adjacent_pairs each_trajectory_alone transition_between_unique reading_ends convert_writes convert_unlabelled_refuted',
  'Records and wire format as in C60.')
S('C73','proved','align_pass alignment_keeps moved_keeps_size no_iterations last_step_full one_iteration last_iteration alignment_finds_truth alignment_starts_afresh aligned_independently alignment_raises align_script_writes align_directory_refuted default_alignment align_script_raises default_steps',
  'For any aligner (a state, a reset and a call). Exact reals, finite shifts.')
S('C86','proved','kept_means left_out_means criteria_suffice processing_raises labels_in_range label_one everything_counted counts_add_up scene_motion plotting_fails_refuted',
  'Neighbour search and argsort are any functions meeting knn_ok and argsort_ok; scene_motion needs a search that looks at distances only. Exact reals; np.asarray of a shapely point is its coordinates (shapely < 2).')
S('C87','proved','files_in_order other_sources unreadable_file stacking stacking_raises prepared preparing_raises',
  'Records and wire format as in C60; a missing number is found when the array is converted.')
S('C88','proved','outcomes_distribution loss_is_likelihood loss_weights no_transition_no_class_loss returned_rates_refuted loss_floor losses_nonneg truth_minimises_loss loss_above',
  'Exact reals. The network is any function.')
S('C89','proved','mlp_evaluates ensemble_rates rates_give_outcomes ensemble_deterministic single_model_rates',
  'Exact reals. Of the external layers: the contract layers_ok (normalisation keeps rows and, outside training, state; without dropout the key is unused; n + 1 outputs), met by ensemble_nonvacuous.')
S('C90','proved','step_optimises epoch_batches epoch_raises training_epochs test_data_unused',
  'Gradient and optimizer are one external function of the loss; permutation and split are external with contracts (a permutation, as many keys as asked for).')
S('C91','proved','dataset_splits dataset_splits_succeed dataset_splits_raise dataset_splits_no_context',
  'Draws are external with contracts (in range, permutation). The cut of the test sets can leave a row with only some of its symmetric copies.')
S('C92','proved','predict_context_refuted predict_scores predict_succeeds predict_ensemble_refuted predict_stale predict_rates_refuted save_load save_fails save_single load_raises load_model_only load_chooses apply_keys apply_keys_fresh package_fixed package_plain',
  'A packaged model is its traced parameters, state and key. File contents are values.')
S('C93','proved','ensemble_training distill_targets_rates distill_loss_zero distill_single synthetic_inputs distill_moments new_predictor_models std_zero distill_step_keys distill_epoch_keys distill_key',
  'Exact reals; normals, initialisation and optimizer are external.')
S('C94','proved','crop_shape crop_succeeds crop_pans crop_shows crop_same crop_vanishes crop_exact crop_oblong_refuted',
  'The nearest-neighbour resize is modelled by its documented formula. The expectation for oblong fields of view is refuted.')
S('C95','proved','reset_blank reset_zero call_answer failed_call memory memory_after_reset first_call call_succeeds wrong_size_stuck preprocess_fails preprocess_normalizes preprocess_flat script_independent script_calls blank_history script_history wrong_size_error',
  'Network, equalisation and OpenCV are arbitrary functions; one channel; exact reals.')
S('C96','proved','detected detected_sound detected_complete detected_margin usual_margin softmax_classes softmax_probabilities detected_oblong_refuted',
  'Erosion, contours and moments are one arbitrary function; exact reals. The expectation for oblong images is refuted.')
S('C97','proved','hybrid_answers hybrid_places hybrid_first hybrid_settings',
  'The first two for any post-processing, the last for the filter as it is built.')
S('C98','proved','bits_ieee probability_value detector_outcomes detector_empty corner_atoms atom_places uncertain_silicon_refuted mask_displaced_refuted byte_wraps',
  'float32 probabilities by their bits; the distance transform, threshold, contours and moments are one arbitrary function; OpenCV morphology with its default anchor. The expectations that silicon off carbon is found and that the mask covers its carbon are refuted.')
S('C99','proved','scale_factor scale_factor_nan middle_mean_robust scale_exact',
  'Exact reals; NaN (fewer than two atoms) is None.')
S('C100','proved','mask_pixels mask_oblong mask_graphene default_mask',
  'Exact reals. The expectation that other than square sizes work is refuted by mask_oblong.')
S('C101','proved','clean_image margin_pixels clean_image_raises clean_image_nan single_atom_blob round_blob_refuted margin_refuted',
  'Exact reals; scipy.ndimage.gaussian_filter modelled with its truncation; NaN is None.')
S('C102','proved','jitter_rolls poisson_counts poisson_raises salt_and_pepper contrast_power contrast_raises uniform_noise exponential_noise gaussian_noise blur_mean nan_spreads stem_image_no_atoms stem_image stem_image_stages sampled_parameters_image',
  'The distributions are those of an arbitrary generator with the contract sampler_ok, Poisson draws an arbitrary function; the last step, equalize_adapthist, is an arbitrary function of the image described.')
S('C103','proved','download_history download_fresh download_kept download_retry download_complete_refuted detector_fresh detector_failed detector_cut aligner_unpacks aligner_kept aligner_failed',
  'A run is its list of writes, cut anywhere; zipfile and tf.saved_model.load are arbitrary functions; archives hold files of their own model only. Completeness is refuted.')
S('C104','proved','microscope_names train_names eval_registration eval_names',
  'Callables are represented by data, see Model/Registry.v.')
S('C105','proved','random_experiments greedy_experiments learned_experiments greedy_bounds_refuted train_experiments_run random_evaluations_run greedy_given_picture made_agent_draws default_image_seconds',
  'Trained models are arbitrary functions of the features; places are rounded to float32 where the code does so; drawing pictures succeeds for the experiments that need them. The expectation about the bounds of greedy actions is refuted.')
S('C106','proved','training_uninterrupted training_keeps training_resumed training_completed training_epochs training_one_crash training_crash_refuted',
  'An epoch is an arbitrary function of the state; saving a checkpoint is atomic and does nothing for a step that is not after the latest one, as documented by orbax; what is restored is what was saved (for the graph network see C108). Equality with an uninterrupted run is refuted.')
S('C107','proved','package_best package_trained package_aligner_installs package_detector_refuted unboxed',
  'tf.saved_model.save is an arbitrary list of files, and unzipping gives what was zipped. That a packaged detector can be installed is refuted.')
S('C108','proved','name_round_trip saved_name_clean checkpoint_round_trip checkpoint_contents checkpoint_keys checkpoint_loses_refuted',
  'str.replace as a scan from left to right; dicts in the order of insertion. Only the keys the code renames are keys here: those inside a module are part of the value.')
S('C109','proved','dataset_loaded dataset_without_readout dataset_converted short_dataset_empty dataset_convertible positions_in_view labels_scaled beam_converted_twice_refuted frame_missing_key frame_lookup conversion_missing_frame',
  'Findings: a dataset of up to three frames is uploaded as an empty trajectory; a frame without atoms or without dopants raises and stops the whole upload. Files are modelled by what they contain; JSON decoding is not modelled.')
S('C110','proved','blob_names blob_unreadable_refuted blob_names_collide_refuted upload_result upload_complete upload_crash upload_status upload_reads character_classes lower_case nameless_dataset',
  'The bucket is a function from names to records; ASCII names. The conversion to underscores follows inflection.underscore as two scans.')
S('C111','proved','detection_pixels alignment_pixels right_size no_pixels label_targets labels_told_apart processes_share seen_as_trained',
  'tf.image.resize with nearest neighbours, tf.one_hot and tf.image.convert_image_dtype are modelled exactly over the reals; loading from disk, shuffling and batching (grain) are not modelled. That a process reads every n-th example is a hypothesis of processes_share about grain.')
S('C112','proved','epoch_averages detection_epoch_averages metrics_forgotten pixel_loss detection_batch reported_accuracy alignment_accuracy_refuted alignment_accuracy_zero drift_losses final_step_reported alignment_losses detection_report',
  'jax.grad and the optimizer are arbitrary functions; real numbers instead of float32; logits and drifts are given the shape of the targets (the reshaping is not modelled); sharding over devices is not modelled.')
S('C113','proved','learning_rate_shape learning_rate_error idle_steps last_batches_idle_refuted examples_seen graph_examples_refuted adamw_step',
  'optax schedules as documented: decay_steps of warmup_cosine_decay_schedule includes the warm-up, and adamw multiplies its whole update, with the weight decay, by the rate.')
S('C114','proved','graph_losses padding_ignored no_loss default_losses errors_count_padding_refuted batch_entries',
  'Real numbers instead of float32; predictions are a function of the parameters and an example (jax.vmap); NaN as absence of a value.')
S('C115','proved','graph_network dense_refuted points_renamed capacity_irrelevant only_displacements training_graph overflow_unnoticed_refuted fresh_neighbors column_sums features_mismatch graph_errors',
  'jraph, haiku and jax_md are not in the repository: message passing and to_jraph are modelled as documented, MLPs with normalization as arbitrary functions of a row, and what jax_md finds as neighbors is the hypothesis finds_neighbors. Sums over the reals.')
S('C116','proved','unet_sizes global_local_sizes no_features unet_reach global_local_reach default_unet conv_values transpose_values pool_values concatenate_values levels ends',
  'flax layers are not in the repository: SAME padding for convolutions of odd size, VALID pooling and jax.lax.conv_transpose with SAME padding are modelled as documented. Images without pixels are outside of the claim. Taps are arbitrary functions of a pixel, which includes the linear ones; LayerNorm and the activation act on each pixel.')
S('C117','proved','sampled_ranges sampled_every sampled_undefined sampled_usable rate_function_round_trip rate_function_file rate_function_read rate_function_crash rate_function_crash_refuted',
  'msgpack with msgpack_numpy is external: that unpacking gives back what was packed is a premise, as is that the pieces the operating system writes make up the bytes. Arithmetic is exact. No ancestor of the directory is a file.')
S('C118','proved','rate_contours rate_plot_errors rate_line rate_arc arc_angle_refuted mixture_hops rate_maxima rate_visual_errors data_plot data_plot_errors',
  'Matplotlib and seaborn are external: the model returns the data handed to them. The order in which a Python set is gone through is an oracle. Arithmetic is exact; neighbours other than the first are at least 0.01 away from it for the line plot.')
S('C119','proved','classifier_choice classifiers_written classifiers_stop classifier_unknown sklearn_mlp_refuted classifier_rates classifier_plots classifier_plots_fail context_columns augmented_states classifier_run_no_data classifier_run classification_network_refuted rate_network_saved rate_network_single ensemble_not_saved classifier_run_stops',
  'scikit-learn is external: fitting and probabilities are oracles with the contract in Spec/RateTraining.v. Networks are oracles whose number of inputs is set when they are created and kept by training; rows of another length are an error. The plots of the metrics are left out.')
S('C120','proved','microscope_frame_drawn drawn_atoms material_frame_drawn frame_panels frame_without_atoms outline_closed render_shows render_goal_visible render_never_raises render_after_reset render_beam',
  'A drawing is the list of calls on the axes; turning it into pixels is matplotlib and not modelled. The expectation that the beam is drawn where it was is false after the field of view moved; render_beam says exactly when.')
S('C121','proved','attribute_forwarded private_not_forwarded attribute_missing has_attribute_exact attribute_set set_through_wrapper_refuted wrapper_transparent no_limit_transparent nested_limits shipped_resets_first environment_reached',
  'Python objects are modelled as the attributes that ordinary lookup finds plus the wrapped object. Histories are for environments whose reset returns a first time step, which shipped_resets_first shows of the shipped ones.')
S('C122','proved','eval_command_unknown eval_command_returns eval_command_complete videos_change_nothing random_eval_command eval_command_limit',
  'Loading an agent, the clock and writing a movie are oracles. Numbers written with two decimals are rounded exactly rather than through binary floating point, hence within half a hundredth.')
S('C123','proved','specs_relayed observations_conform specs_kept',
  'cv2.resize is an oracle with the contract that it returns 128 rows of 128 32 bit floats. The answered part is for dwell times within [0, 10] seconds, which holds for the registered training and evaluation experiments.')
S('C124','proved','unet_layout global_local_layout parameters_distinct unet_determined global_local_determined default_levels aligner_determined shipped_parameters',
  'The names and shapes that flax gives parameters are written from its documentation, as it is not in the repository.')
S('C125','proved','prior_data network_data synthetic_ranges synthetic_modes synthetic_clock',
  'Random keys are trees: that JAX gives different keys different numbers, and that numbers have their distribution, is not part of the model. The network is any function of its input.')
S('C126','proved','model_read_once model_read_late new_object use_reads reload_model cut_detector',
  'tf.saved_model.load is any function of the files below the path. One thread.')
S('C127','proved','made_observation made_sheet',
  'The renderer is any function; create_simple_environment is C130.')
S('C128','proved','stacked_members stacked_index stacked_is_list stack_errors index_unstacked',
  'Arrays of one type of numbers, in row-major order. This is why the other theorems about ensembles may keep a list of members.')
S('C129','proved','fov_text fov_text_identifies',
  'Real numbers have no negative zero.')
S('C130','proved','train_environment_runs train_environment_repeats simple_environment_runs',
  'Exponential draws exceed 1/2000000 and the neighbour search answers by distance, as in C105.')
