{
 "claims": [
  {
   "property": "C01",
   "status": "proved",
   "theorems": [
    "mf2_roundtrip_sym",
    "mf2_roundtrip_full",
    "mf2_roundtrip_back_sym",
    "mf2_roundtrip_back_full",
    "mf4_roundtrip_sym",
    "mf4_roundtrip_full",
    "mf4_roundtrip_back_sym",
    "mf2_roundtrip_sym_vectorised",
    "mf2_roundtrip_sym_nokelvin_refuted",
    "problem_type_orders"
   ],
   "note": "Proved for every dimension and every admissible order in Kelvin notation and for full orders. Kelvin notation is the default; with it switched off the loop reader loses the transposed entries (mf2_roundtrip_sym_nokelvin_refuted) while the vectorised one does not."
  },
  {
   "property": "C02",
   "status": "proved",
   "theorems": [
    "mf2_isometry_sym",
    "mf2_isometry_full",
    "mf4_matvec_sym",
    "mf4_matmul_sym"
   ],
   "note": ""
  },
  {
   "property": "C03",
   "status": "partial",
   "theorems": [
    "get_mf2_vectorised",
    "get_mf4_vectorised",
    "from_mf2_vectorised_sym_partial",
    "from_mf2_vectorised_full",
    "from_mf4_vectorised_sym_partial",
    "from_mf4_vectorised_full",
    "from_mf2_vectorised_nokelvin_refuted",
    "incomplete_order_accepted"
   ],
   "note": "Agreement proved on all admissible orders with Kelvin notation and on full orders; false for symmetric orders without Kelvin notation and for incomplete orders (witnesses)."
  },
  {
   "property": "C04",
   "status": "proved",
   "theorems": [
    "state_3d_from_2d_sym",
    "state_3d_from_2d_nsym",
    "state_2d_3d_roundtrip",
    "state_2d_from_3d_sym",
    "state_2d_from_3d_nsym",
    "state_2d_from_3d_mat_sym",
    "state_3d_vectorised",
    "state_2d_vectorised",
    "state_2d_mat_vectorised"
   ],
   "note": ""
  },
  {
   "property": "C05",
   "status": "proved",
   "theorems": [
    "voigt_work_conjugate",
    "voigt_strain_roundtrip",
    "voigt_strain_vectorised",
    "voigt_stress_vectorised",
    "voigt_projections"
   ],
   "note": ""
  },
  {
   "property": "C06",
   "status": "partial",
   "theorems": [
    "id_operators_apply",
    "dev_projection_3d_partial",
    "dev_projection_3d_idempotent",
    "dev_plus_vol_3d",
    "dev_projection_2d_refuted",
    "dev_projection_trace",
    "dyad_contractions",
    "double_contraction_adjoint"
   ],
   "note": "Operators proved in every dimension; the deviatoric projection is a projection onto traceless tensors in 3D only, since the factor 1/3 is hard-coded (witness in 2D)."
  },
  {
   "property": "C07",
   "status": "proved",
   "theorems": [
    "element_sizes",
    "shapefun_partition_of_unity",
    "shapefun_nodal_delta",
    "shapefun_linear_complete",
    "shapefun_quadratic_complete"
   ],
   "note": ""
  },
  {
   "property": "C08",
   "status": "proved",
   "theorems": [
    "shapefun_deriv_correct",
    "shapefun_deriv_complete"
   ],
   "note": ""
  },
  {
   "property": "C09",
   "status": "proved",
   "theorems": [
    "gauss_1d_exact",
    "gauss_quadrilateral_exact",
    "gauss_hexahedral_exact",
    "gauss_triangular_exact",
    "gauss_tetrahedral_exact",
    "element_quadrature_available",
    "gauss_1d_degree_sharp"
   ],
   "note": ""
  },
  {
   "property": "C10",
   "status": "proved",
   "theorems": [
    "strain_is_symmetric_gradient",
    "patch_test",
    "rigid_motion_no_strain",
    "shapefun_deriv_defined",
    "spatial_gradient_exists",
    "jacobian_check_exact"
   ],
   "note": ""
  },
  {
   "property": "C11",
   "status": "proved",
   "theorems": [
    "sym_gradient_vectorised",
    "full_gradient_vectorised",
    "full_gradient_apply",
    "expand_reduce_roundtrip",
    "expand_apply"
   ],
   "note": ""
  },
  {
   "property": "C12",
   "status": "proved",
   "theorems": [
    "internal_forces_virtual_work",
    "internal_forces_rigid_work",
    "internal_forces_resultants",
    "finite_strain_rejected"
   ],
   "note": ""
  },
  {
   "property": "C13",
   "status": "proved",
   "theorems": [
    "assembly_value",
    "assembly_untouched",
    "extraction_value",
    "assembly_adjoint",
    "assembly_order_independent",
    "assembly_out_of_range",
    "element_configuration_value",
    "element_configuration_zero_label"
   ],
   "note": ""
  },
  {
   "property": "C14",
   "status": "proved",
   "theorems": [
    "vectorised_assembly",
    "vectorised_assembly_out_of_range_refuted"
   ],
   "note": "Proved for all labels in range, the quantifier of C13; labels outside the mesh are rejected by the loop version and dropped by the vectorised one (witness)."
  },
  {
   "property": "C15",
   "status": "partial",
   "theorems": [
    "loss_nonneg",
    "loss_zero_iff",
    "hist_loss_nonneg",
    "hist_loss_zero_iff",
    "normalised_loss_at_equilibrium",
    "normalised_loss_zero_iff_partial",
    "normalised_loss_refuted",
    "dirichlet_sets_loss_zero_iff",
    "norm_force_is_minmax",
    "loss_scaling"
   ],
   "note": "Proved without force normalisation and with symmetric normalisation bounds; false with asymmetric bounds, where the loss at equilibrium is a computed positive constant (witness)."
  },
  {
   "property": "C16",
   "status": "partial",
   "theorems": [
    "vectorised_pointwise_loss",
    "vectorised_hist_loss",
    "dirichlet_sets_loss_partial",
    "dirichlet_sets_reaction",
    "loss_components_total",
    "loss_components_entries_partial",
    "loss_components_normalisation_refuted",
    "time_varying_codes_ignored_refuted",
    "dirichlet_sets_without_free_refuted"
   ],
   "note": "Pointwise agreement proved for all inputs. The set loss has the claimed value whenever some degree of freedom is free; without one the smallest label is treated as free (witness)."
  },
  {
   "property": "C17",
   "status": "partial",
   "theorems": [
    "modes_agree_partial",
    "modes_succeed_and_agree_partial",
    "element_hist_path",
    "interchange",
    "singles_are_assembly",
    "recurrent_time_mode_raises",
    "recurrent_modes_refuted",
    "no_time_steps_refuted"
   ],
   "note": "Same loss and same final states proved for every mesh with standard materials, every constitutive update, history and number of steps >= 1 (and both modes succeed when the element maps are regular). False for recurrent materials, where the time-major mode always raises, and without time steps (witnesses)."
  },
  {
   "property": "C18",
   "status": "partial",
   "theorems": [
    "increments_telescope",
    "increments_from_rest_partial",
    "element_config_value",
    "first_displacement_lost_refuted"
   ],
   "note": "The accumulated strain is the strain of u_t - u_0 for every history, hence the claimed one when u_0 = 0; false otherwise because the first increment is always zero (witness)."
  },
  {
   "property": "C19",
   "status": "proved",
   "theorems": [
    "elastic_path_independent_3d",
    "elastic_path_independent_2d",
    "elastic_splitting",
    "isotropic_tangent_is_hooke",
    "technical_constants_consistent",
    "tangent_has_material_symmetry",
    "anisotropic_constructor_raises",
    "symmetric_modulus_name_refuted"
   ],
   "note": "All increment sequences from the initial state, in 3D and plane strain. The tangent of every symmetry class has the required moduli and is invariant under the symmetry group of its class. The alternative modulus names (E2211 for E1122) that the lookup is meant to accept are never found (witness)."
  },
  {
   "property": "C20",
   "status": "partial",
   "theorems": [
    "pl_law_on_curve",
    "on_curve_unique",
    "pl_interpolates",
    "pl_continuous",
    "pl_lipschitz",
    "pl_slope_is_derivative_partial",
    "pl_slope_at_points",
    "pl_monotone",
    "pl_bounds",
    "pl_too_few_points",
    "pl_first_slope_refuted",
    "linear_value",
    "linear_slope_is_derivative_partial",
    "linear_negative_slope_refuted",
    "nadai_value",
    "nadai_slope_is_derivative_partial",
    "nadai_offset_refuted",
    "nadai_initial_slope_infinite",
    "nadai_monotone",
    "law_selection",
    "unknown_law_rejected"
   ],
   "note": "Values, continuity and interpolation proved for every parameter set. The slope is the derivative away from breakpoints; at or below the first point of the piecewise linear law, and for negative strain in the linear one, a non-derivative slope is reported (witnesses). The Nadai-Ludwik law adds its strain offset twice (witness)."
  },
  {
   "property": "C21",
   "status": "partial",
   "theorems": [
    "vm_step_3d_partial",
    "vm_step_2d_partial",
    "vm_failure_persists",
    "vm_history_partial",
    "vm_history_from_rest_partial",
    "tiny_yield_stress_refuted",
    "nadai_virgin_refuted"
   ],
   "note": "Proved in 3D and plane strain for every prior state, increment and monotone hardening law with yield stresses of at least 2e-8; below that the flow vector is dropped and a state far outside the yield surface is reported as converged (witness)."
  },
  {
   "property": "C22",
   "status": "proved",
   "theorems": [
    "linear_one_correction",
    "linear_update_exact"
   ],
   "note": "Every plastic trial state, including the whole state update."
  },
  {
   "property": "C23",
   "status": "proved",
   "theorems": [
    "masked_loop_early_exit",
    "masked_loop_elastic",
    "vmap_multiplier_is_newton",
    "vmap_agrees_with_standard",
    "vmap_core_3d"
   ],
   "note": "The masked loop equals the early-exit loop for every convergence test and step function, and the vectorised von Mises multiplier is the one of the standard Newton loop with ten iterations."
  },
  {
   "property": "C24",
   "status": "partial",
   "theorems": [
    "tangent_of_exact_return_partial",
    "linear_tangent_is_derivative",
    "linear_tangent_is_derivative_2d",
    "elastic_tangent_is_derivative",
    "elastic_tangent_is_derivative_2d"
   ],
   "note": "Von Mises, 3D and plane strain: proved for the whole update in the elastic range for every law and in the plastic range with linear hardening; for other laws the tangent is the derivative of the exact return mapping, which the Newton loop approximates to tolerance."
  },
  {
   "property": "C25",
   "status": "partial",
   "theorems": [
    "minmax_roundtrip_partial",
    "minmax_roundtrip_back",
    "minmax_fit_range",
    "standard_roundtrip",
    "standard_fit_roundtrip",
    "standard_fit_normalises",
    "minmax_constant_feature_refuted",
    "standard_constant_feature_refuted",
    "minmax_unfitted"
   ],
   "note": "Proved for all tensors (2d and 3d) and features with distinct values; constant features give undefined values (min-max) or are only restored on the fitting data (standard), with witnesses."
  },
  {
   "property": "C26",
   "status": "proved",
   "theorems": [
    "normalise_inverts",
    "construction_iff_admissible",
    "construction_stores_initial_values",
    "invalid_bounds_rejected",
    "equal_bounds_refuted",
    "parameters_always_within_bounds",
    "enforcing_bounds_projects",
    "finder_enforces_bounds",
    "constraints_only_lou",
    "constraint_leaves_bounds_refuted",
    "constraint_applies_return_mapping",
    "constraint_one_parameter_refuted"
   ],
   "note": "Proved for every constructible model and every optimisation history. Equal bounds are accepted by the check but break normalisation at construction (witness); the convexity constraint applied after the bounds may leave them (witness)."
  },
  {
   "property": "C27",
   "status": "proved",
   "theorems": [
    "response_is_incremental",
    "response_is_causal",
    "same_past_same_response",
    "offset_has_no_effect",
    "two_pieces",
    "rc_response_layout",
    "rc_batch_members_independent",
    "vectorised_success_agrees",
    "vectorised_succeeds_partial",
    "strain_feature_refuted",
    "empty_path_refuted"
   ],
   "note": "Exact characterisation of the standard stress path for every material update, path and length. The vectorised path agrees whenever it succeeds; it fails for strain-like state features (witness), which the standard path supports."
  },
  {
   "property": "C28",
   "status": "proved",
   "theorems": [
    "cell_is_gru_unit",
    "layers_are_stacked",
    "output_lengths",
    "hidden_states_bounded",
    "default_hidden_bounded",
    "gru_streaming",
    "outputs_are_causal",
    "last_output_is_last_hidden",
    "gru_batch_members_independent",
    "gru_batch_members_independent_default"
   ],
   "note": "For all weights, layers, sequence lengths and batches."
  },
  {
   "property": "C29",
   "status": "partial",
   "theorems": [
    "early_stop_iff_unimproved_partial",
    "no_early_stop_before_trigger",
    "best_state_is_first_minimum",
    "no_best_state_without_number",
    "best_loss_never_increases",
    "validation_history_per_epoch",
    "nan_first_validation_refuted"
   ],
   "note": "Stop request equivalent to an unimproved tail of length trigger for every validation sequence whose first loss is a number; a NaN first validation breaks it (refuted). Best state = first minimum, minimum never increases, history aligned with epochs: full generality."
  },
  {
   "property": "C30",
   "status": "partial",
   "theorems": [
    "training_outcome_partial",
    "epochs_performed_partial",
    "requested_epochs_refuted",
    "single_epoch_refuted",
    "saved_best_has_other_loss_refuted",
    "tied_best_epochs_refuted",
    "params_check_discards_early_stop_refuted"
   ],
   "note": "The full claim is false of the code: n_max+1 epochs are run, a single-epoch run raises, the saved best state is the post-step state and belongs to the last tied epoch. training_outcome_partial gives the exact outcome for every optimiser/validation behaviour with at most one stopping criterion."
  },
  {
   "property": "C31",
   "status": "partial",
   "theorems": [
    "parameter_converged_iff_settled",
    "convergence_iff_all_settled_partial",
    "minimum_length_of_last_only_refuted",
    "zero_trigger_refuted",
    "no_parameters_refuted",
    "finder_history_is_epoch_average",
    "rc_history_includes_previous_value",
    "rc_epoch_average_refuted"
   ],
   "note": "Exact for positive trigger, at least one parameter and equally long histories; refuted outside. The per-epoch history of the RC trainer is characterised exactly (includes the value before the epoch)."
  },
  {
   "property": "C32",
   "status": "partial",
   "theorems": [
    "state_files_refine_store_partial",
    "one_best_file",
    "save_epoch_effect",
    "load_returns_saved_epoch",
    "training_state_saves_both",
    "posterior_best_survives_refuted",
    "best_without_epoch_refuted",
    "backup_file_breaks_save_refuted",
    "dotted_name_deletes_other_model_refuted"
   ],
   "note": "Refinement to an abstract store for every operation sequence, at string level, for plain model names and directories without look-alike files; the unrestricted claim is false (four witnesses)."
  },
  {
   "property": "C33",
   "status": "partial",
   "theorems": [
    "state_store_refines_partial",
    "update_current_keeps_converged",
    "commit_then_isolated",
    "forward_sequential_element_converged",
    "forward_sequential_time_converged",
    "forward_modes_agree",
    "commit_without_copy_refuted",
    "get_without_copy_refuted",
    "standard_model_init_refuted"
   ],
   "note": "Refinement of the referencing heap to a store without sharing for every operation sequence with is_copy=True. With is_copy=False (used by the time loop of material_discovery.py) current and converged states alias (witnesses); models that are not recurrent can never be initialised (witness)."
  },
  {
   "property": "C34",
   "status": "partial",
   "theorems": [
    "add_feature_effect",
    "concatenate_effect",
    "concatenate_succeeds",
    "sum_features_effect",
    "rename_effect_partial",
    "subset_of_files_edits_lost",
    "mem_distinct",
    "file_distinct",
    "subset_distinct",
    "remove_conserves",
    "split_partitions",
    "split_fails_runtime",
    "split_succeeds",
    "sum_default_weights_refuted",
    "rename_in_memory_refuted",
    "rename_swap_refuted",
    "concatenate_replace_refuted"
   ],
   "note": "Exact effect and frame of every edit for data sets in memory, of files, and subsets of data sets in memory; split and removal in full generality. False in general: renaming fails on data sets in memory and under label swaps, default sum weights raise, edits of subsets of file data sets are lost (witnesses)."
  },
  {
   "property": "C35",
   "status": "partial",
   "theorems": [
    "conv_leaf_wanted",
    "convert_inplace_effect",
    "convert_copy_effect_partial",
    "convert_copy_flat",
    "convert_inplace_succeeds",
    "converted_tree",
    "to_tensor_nested_refuted",
    "to_tensor_inplace_flat",
    "convert_copy_mutates_nested_refuted",
    "to_tensor_copy_drops_refuted"
   ],
   "note": "Exact heap effect of both conversions, in place and with copy, including shared dictionaries. False in general: the copy mutates nested dictionaries, the tensor conversion fails on nesting and drops entries when copying (witnesses)."
  },
  {
   "property": "C36",
   "status": "proved",
   "theorems": [
    "cyclic_path_shape",
    "cyclic_path_structure",
    "generate_fails_iff",
    "generate_length",
    "cyclic_subset"
   ],
   "note": "Exact index characterisation (triangle wave) for every number of times and cycles accepted by the check; rejection exactly for fewer than 2 n_cycle + 1 times."
  },
  {
   "property": "C37",
   "status": "partial",
   "theorems": [
    "proportional_linear",
    "proportional_within_bounds_partial",
    "proportional_starts_at_zero",
    "random_within_bounds_partial",
    "generated_proportional_partial",
    "generated_random_partial",
    "bound_scale_keeps_zero",
    "increments_met",
    "enforce_fails_iff",
    "proportional_out_of_bounds_refuted",
    "random_out_of_bounds_refuted",
    "zero_increment_refuted",
    "increments_leave_bounds_refuted"
   ],
   "note": "Bounds hold when they enclose zero strain (proportional) and, for random paths, when the regression exceeds them on one side only; prescribed norms are met at every step. False outside: bounds excluding zero, both bounds exceeded, vanishing increments (NaN), prescribed norms leaving the bounds (witnesses)."
  },
  {
   "property": "C38",
   "status": "proved",
   "theorems": [
    "filter1_length",
    "filter1_value",
    "denoise_features",
    "denoise_fails_iff",
    "denoise_shape",
    "moving_average_constant",
    "moving_average_range",
    "denoise_linear",
    "moving_average_affine",
    "filter1_polynomial",
    "moments_suffice",
    "mean_kernel_odd",
    "even_window_refuted"
   ],
   "note": "For every window, number of features and of denoising cycles; polynomial reproduction for every kernel with matching moments (Savitzky-Golay). Even windows shift affine paths (witness)."
  },
  {
   "property": "C39",
   "status": "proved",
   "theorems": [
    "mesh_labels_consecutive",
    "mesh_coordinates",
    "mesh_coordinates_distinct",
    "mesh_spans_patch",
    "connectivities",
    "no_orphan_nodes",
    "phases_follow_elements",
    "boundary_is_boundary"
   ],
   "note": "All eight element types, any number of elements per dimension (two or three dimensions), any positive patch size; exact arithmetic."
  },
  {
   "property": "C40",
   "status": "proved",
   "theorems": [
    "remove_result",
    "remove_error_iff",
    "remove_displacements"
   ],
   "note": "Any mesh with distinct labels whose elements refer to existing nodes; also characterises the two errors."
  },
  {
   "property": "C41",
   "status": "partial",
   "theorems": [
    "make_directory_fresh",
    "make_directory_overwrite",
    "make_directory_overwrite_succeeds",
    "new_file_path_fresh",
    "predictions_subdir_fresh",
    "new_file_path_is_directory_refuted",
    "make_directory_fails_refuted"
   ],
   "note": "Freshness for every file system state. The returned file path may name an existing directory, and creation fails when a numbered name is a regular file (witnesses)."
  },
  {
   "property": "C42",
   "status": "proved",
   "theorems": [
    "channels_group_by_row",
    "good_channels_unique",
    "channels_fail_iff_duplicate",
    "channels_fail_runtime",
    "channels_order_independent",
    "forward_is_composition",
    "normalised_hybridised_model_refuted",
    "empty_hybrid_returns_input"
   ],
   "note": "Proved for every dictionary. Evaluation of channels additionally needs data_scaler_transform on models that work on normalised features; the recurrent classes lack it (witness)."
  },
  {
   "property": "C43",
   "status": "proved",
   "theorems": [
    "principal_invariants",
    "deviatoric_invariants",
    "second_invariant_norm",
    "hydrostatic_independence",
    "invariants_isotropic",
    "reduces_to_drucker_prager",
    "reduces_to_von_mises",
    "effective_stress_homogeneous",
    "effective_stress_isotropic",
    "effective_stress_even"
   ],
   "note": "All stress tensors (symmetric where stated), exact arithmetic."
  },
  {
   "property": "C44",
   "status": "partial",
   "theorems": [
    "return_mapping_partial",
    "search_terminates",
    "boundary_within_tolerance",
    "boundary_next_to_change",
    "boundary_side",
    "return_mapping_refuted",
    "short_interval_refuted",
    "convex_surface_passes",
    "round_surface_passes",
    "atan2_polar",
    "convexity_check_exact"
   ],
   "note": "Direction and tolerance hold for every domain; the last tested radius is returned, so the result may be outside the convex domain (witness; boundary_side says exactly when). The check itself is shown to accept every convex surface, not to reject every non-convex one."
  },
  {
   "property": "C45",
   "status": "proved",
   "theorems": [
    "pruning_step_conserves",
    "pruning_step_counts",
    "pruned_have_smallest_loss",
    "pruning_conserves",
    "pruning_step_stops",
    "proportional_stall_refuted",
    "validation_file_overwritten_iff",
    "validation_file_overwritten_refuted",
    "iteration_directory_shared_refuted"
   ],
   "note": "Conservation for every split, loss ranking and number of iterations; the scheduled number is moved whenever the maximum testing ratio is at most one. Related defects found: stalling proportional scheduler, test set saved over the validation set of equal size, iterations sharing a directory (witnesses)."
  },
  {
   "property": "C46",
   "status": "proved",
   "theorems": [
    "fo_dinv_sym_apply",
    "fo_dinv_sym_is_derivative"
   ],
   "note": ""
  },
  {
   "property": "C47",
   "status": "partial",
   "theorems": [
    "vmap_consistency_partial",
    "vmap_consistency_refuted",
    "vmap_core_3d"
   ],
   "note": "Proved up to the tolerance plus the explicit error of the shifted norm used to normalise the flow vector; the tolerance alone is not met for small yield stresses (witness)."
  },
  {
   "property": "C48",
   "status": "partial",
   "theorems": [
    "sync_stores_physical_parameters_partial",
    "unknown_parameter_rejected",
    "friction_angle_conflict_refuted"
   ],
   "note": "Proved for all nine material models when the friction angle is not learnt together with the parameters it determines; in that case the later dictionary entry wins (witness)."
  },
  {
   "property": "C49",
   "status": "proved",
   "theorems": [
    "lou_jacobian_is_derivative",
    "lou_flow_is_gradient",
    "lou_third_invariant_derivative"
   ],
   "note": "Every differentiable curve of unknowns through a state at which the code evaluates; laws differentiable with the slope they return."
  },
  {
   "property": "C50",
   "status": "proved",
   "theorems": [
    "lou_step_3d",
    "lou_residuals_are_backward_euler",
    "lou_plane_strain",
    "lou_failure_persists",
    "lou_last_correction_small"
   ],
   "note": "For every linear solver (the residual is recomputed by the code before convergence is accepted), law and increment."
  },
  {
   "property": "C51",
   "status": "partial",
   "theorems": [
    "lou_pure_shear_refuted",
    "lou_plastic_strain_decreases_refuted",
    "lou_zero_third_invariant_raises",
    "lou_apex_perfectly_plastic"
   ],
   "note": "False of the code: RuntimeError whenever a yielding trial stress has zero third deviatoric invariant (the deviatoric stress is inverted), and a decreasing accumulated plastic strain for trial pressures between 95 and 100 percent of the apex pressure. The general theorems say exactly what happens in both cases."
  },
  {
   "property": "C52",
   "status": "partial",
   "theorems": [
    "dp_step_3d",
    "dp_plane_strain",
    "dp_failure_persists",
    "dp_return_linear",
    "dp_linear_never_fails",
    "dp_irreversible_partial",
    "dp_isochoric_apex_fails"
   ],
   "note": "Every clause holds for every hardening law except irreversibility: a return to the apex may lower the accumulated plastic strain by an amount bounded by the tolerance (bound proved; exact monotonicity for linear hardening). With a zero flow or yield pressure parameter every state beyond the apex is flagged as failed. Trial deviators below 1e-8 are dropped (dp_axis_step)."
  },
  {
   "property": "C53",
   "status": "partial",
   "theorems": [
    "dp_elastic_tangent_is_derivative",
    "dp_apex_tangent_is_derivative",
    "dp_cone_derivative",
    "dp_cone_tangent_is_derivative_partial",
    "dp_cone_tangent_wrong",
    "dp_cone_tangent_refuted"
   ],
   "note": "False of the code for returns to the cone: the tangent divides by the norm of the whole elastic trial strain. It is the derivative for every volume-preserving trial strain and is not for every other trial strain (dp_cone_tangent_wrong); dp_cone_derivative gives the corrected formula. Plastic tangents for linear hardening."
  },
  {
   "property": "C54",
   "status": "partial",
   "theorems": [
    "mx_step_3d_partial",
    "mx_step_2d_partial",
    "mx_plastic_steps_off_surface",
    "mx_step_refuted"
   ],
   "note": "False of the code: the back stress moves by 3/2 of the increment of the kinematic hardening stress (the flow vector has norm sqrt(3/2)), so plastic steps end at y - dk/2 in relative equivalent stress instead of y, inside the yield surface for dk <= y and outside for dk > 4y. All other clauses hold; the offset is proved exactly (to tolerance)."
  },
  {
   "property": "C55",
   "status": "proved",
   "theorems": [
    "mx_history",
    "mx_failure_persists",
    "mx_without_kinematic_hardening",
    "mx_linear_update"
   ],
   "note": "For every law bounded below and non-decreasing; closed form for linear laws."
  },
  {
   "property": "C56",
   "status": "partial",
   "theorems": [
    "mx_elastic_tangent_is_derivative",
    "mx_linear_tangent_is_derivative",
    "mx_elastic_tangent_is_derivative_2d",
    "mx_linear_tangent_is_derivative_2d",
    "vmap_mixed_multiplier",
    "vmap_mixed_core",
    "vmap_mixed_tangent_refuted"
   ],
   "note": "Standard model: proved in elastic steps for every law and in plastic steps for linear laws, three dimensions and plane strain. Vectorised model: same branch, multiplier and failures for every law, flow vector up to the shifted norm; its tangent omits the kinematic slope and is refuted."
  },
  {
   "property": "C57",
   "status": "partial",
   "theorems": [
    "build_reads_components",
    "store_reads_tensor",
    "store_build_inverse",
    "strain_features_are_invariants",
    "strain_features_objective",
    "features_need_three_dimensions",
    "stress_features_split",
    "stress_features_trace",
    "deviatoric_feature_refuted",
    "add_features_effect",
    "add_features_succeeds",
    "strain_feature_path",
    "infer_n_dim_correct",
    "sample_order_refuted"
   ],
   "note": "Everything holds except: the stored deviatoric stress is stress - tr(stress) I (trace -2 tr, not 0), the stored volumetric stress is three times the hydrostatic stress, and the component order of the first sample is used for every sample (witness with two orders)."
  },
  {
   "property": "C58",
   "status": "partial",
   "theorems": [
    "voldev_forward_effect",
    "voldev_forward_shape",
    "voldev_batch_independent",
    "stress_features_compose",
    "voldev_forward_pure_refuted"
   ],
   "note": "False in one clause: the layer writes its result into the caller's tensor; evaluating it again on that tensor gives another result. The exact contents of the overwritten input are proved."
  },
  {
   "property": "C59",
   "status": "partial",
   "theorems": [
    "elastic_layer_is_hooke_3d",
    "elastic_layer_is_hooke_2d",
    "elastic_forward_shape",
    "elastic_layer_symmetry_refuted"
   ],
   "note": "Proved for isotropic elasticity; the constructor ignores the requested elastic symmetry (witness with orthotropic moduli)."
  },
  {
   "property": "C60",
   "status": "partial",
   "theorems": [
    "low_pass_all_frequencies",
    "low_pass_no_frequency",
    "low_pass_linear",
    "low_pass_compose",
    "low_pass_idempotent",
    "low_pass_orthogonal",
    "low_pass_energy",
    "low_pass_contracts",
    "low_pass_best",
    "low_pass_spectrum",
    "low_pass_mean",
    "low_pass_tone",
    "denoise_low_pass_effect",
    "denoise_low_pass_shape",
    "low_pass_plot_refuted",
    "low_pass_plot_partial"
   ],
   "note": "Every clause about the filter is proved for real arithmetic (the discrete transform by its definition). The plot clause is false: the plot data array has n_time//2 columns and 2*n_features are written, so plotting raises IndexError when 2*n_features > n_time//2; it is harmless when 4*n_features <= n_time."
  },
  {
   "property": "C61",
   "status": "partial",
   "theorems": [
    "mre_is_mean",
    "mre_zero_iff",
    "mre_empty",
    "mre_bound",
    "mre_uniform",
    "mre_modes",
    "mre_units",
    "mre_permutation",
    "get_pytorch_loss_labels",
    "mre_gradient_partial",
    "mre_null_target_gradient",
    "mre_gradient_refuted"
   ],
   "note": "All clauses on the value are proved; the gradient is the derivative when no target is null. False otherwise: in the default 'absolute' mode the discarded branch of torch.where divides by the null target, so the backward pass yields NaN."
  },
  {
   "property": "C62",
   "status": "partial",
   "theorems": [
    "metrics_values",
    "metrics_missing_file",
    "metrics_unknown_label",
    "metrics_need_targets",
    "mav_without_targets_refuted",
    "rmse_squared",
    "mse_zero_iff",
    "mav_within_rmse",
    "mse_is_training_loss"
   ],
   "note": "Proved except one clause: 'mav' depends on the predictions only, but is refused when there is no ground truth."
  },
  {
   "property": "C63",
   "status": "proved",
   "theorems": [
    "collate_succeeds_iff",
    "collate_entries",
    "collate_empty",
    "loader_epoch"
   ],
   "note": "torch's DataLoader is modelled by its documented batching of the visiting order."
  },
  {
   "property": "C64",
   "status": "proved",
   "theorems": [
    "min_max_batch_fit_pooled",
    "mean_std_batch_fit_pooled",
    "batch_fit_same_data",
    "fit_minmax_from_dataset",
    "fit_standard_from_dataset",
    "fit_standard_normalises",
    "fit_minmax_normalises",
    "batch_fit_empty",
    "batch_fit_missing_feature",
    "fit_unknown_type"
   ],
   "note": "Real arithmetic; scikit-learn's partial_fit by its published update formulas."
  },
  {
   "property": "C65",
   "status": "partial",
   "theorems": [
    "model_scaler_roundtrip",
    "unfitted_model_refuses",
    "set_scalers_effect",
    "set_scalers_restored",
    "fit_scalers_effect",
    "fitted_model_normalises",
    "failed_fit_keeps_scalers_refuted",
    "set_fitted_scalers_refuted"
   ],
   "note": "The last two clauses are false: a failed fit wipes the scalers in memory while the file keeps the old ones; set_fitted_data_scalers calls a method the three classes lack (AttributeError) and, for min-max scalers, a missing comma raises TypeError."
  },
  {
   "property": "C66",
   "status": "partial",
   "theorems": [
    "predict_values",
    "predict_batch_size",
    "summary_value_partial",
    "perfect_predictions",
    "normalised_loss",
    "predict_unknown_loss",
    "predict_needs_targets",
    "predict_empty",
    "loss_without_targets",
    "scaler_rowwise",
    "predict_without_targets_refuted",
    "zero_loss_reported_refuted"
   ],
   "note": "Proved except two clauses that are false: a data set without ground truth raises KeyError although the loss computation handles it, and an average loss of exactly zero is reported as None."
  },
  {
   "property": "C67",
   "status": "partial",
   "theorems": [
    "restore_from_file",
    "gru_restored",
    "hybrid_restored",
    "rc_restored_partial",
    "rc_restored_defaults",
    "rc_restored_refuted",
    "restored_never_saves",
    "no_directory_fails"
   ],
   "note": "Proved for the GRU and hybrid classes; false for the recurrent constitutive class, whose file omits is_auto_sync_parameters and is_check_su_fail."
  },
  {
   "property": "C68",
   "status": "partial",
   "theorems": [
    "euler_bunge",
    "euler_rotation",
    "euler_identity",
    "random_rotation_orthogonal",
    "rigid_motion_isometry",
    "rigid_motion_needs_both",
    "default_motion_refuted"
   ],
   "note": "Proved except the last clause, which is false: the code tests the rotation and translation of the last edge instead of those of the rigid motion, so that the default (no range) raises TypeError and no patch is generated."
  },
  {
   "property": "C69",
   "status": "partial",
   "theorems": [
    "corners_in_range_partial",
    "fixed_corner_partial",
    "fixed_corner_refuted",
    "zero_order_parallel_partial",
    "zero_order_parallel_refuted"
   ],
   "note": "False in general: when the ranges of the ends of an order zero edge do not overlap on an interval, the averaged displacement leaves both and moves fixed corners; in three dimensions a later edge overwrites one end of an earlier one. Proved for compatible ranges (any dimension), and parallelism in two dimensions."
  },
  {
   "property": "C70",
   "status": "partial",
   "theorems": [
    "edge_def_ends",
    "edge_frame_orthonormal",
    "edge_frame_outward",
    "edge_frame_exterior",
    "sampler_interpolates",
    "polynomial_unique",
    "solver_exists",
    "straight_edge",
    "straight_edge_affine",
    "edge_nodes_on_curve",
    "edge_range_partial",
    "edge_range_refuted"
   ],
   "note": "All clauses are proved (np.linalg.solve by its specification, which is shown satisfiable) except the last one: it holds up to order two and is refuted for order three."
  },
  {
   "property": "C71",
   "status": "partial",
   "theorems": [
    "node_label_near",
    "node_label_exact",
    "boundary_displacements",
    "boundary_2d",
    "loop_admissible",
    "loop_exhausted",
    "face_uniform_partial",
    "face_linear_refuted"
   ],
   "note": "The boundary values and the loop are proved; full chain from the draws to the dictionary in two dimensions. The face interpolation uses i/n instead of i/(n-1): it reproduces uniform but not linear displacements."
  },
  {
   "property": "C72",
   "status": "partial",
   "theorems": [
    "regressor_init_ok",
    "poly_forward_value",
    "poly_batch_independent",
    "poly_at_zero",
    "poly_identity",
    "poly_linear_in_weights",
    "poly_identifiable",
    "poly_forward_width",
    "set_device_checks",
    "transfer_elastic_is_hooke_3d",
    "transfer_elastic_is_hooke_2d",
    "transfer_elastic_shape",
    "hybridization_known",
    "hybridization_identity",
    "hybridization_additive",
    "poly_degree_zero_refuted",
    "get_device_refuted",
    "elastic_layers_opposite_refuted"
   ],
   "note": "Proved except: degree zero without bias raises instead of giving a null model; the device of a regressor cannot be read (AttributeError); on concatenated strains the transfer and the hybridized elastic layers return opposite stresses."
  },
  {
   "property": "C73",
   "status": "partial",
   "theorems": [
    "positions_distinct",
    "noise_uniform",
    "noise_uniform_bounded",
    "noise_gaussian",
    "noise_gaussian_negative",
    "noise_het_uniform",
    "noise_het_gaussian",
    "noise_het_weights",
    "noise_spiked",
    "noise_null",
    "hom_covariance",
    "het_covariance",
    "noise_setup",
    "noise_order",
    "default_weights_refuted",
    "noise_variability_refuted"
   ],
   "note": "Proved except: heteroscedastic noise without weights has twice the variance of homoscedastic noise, and an unknown variability ends in NameError."
  },
  {
   "property": "C74",
   "status": "partial",
   "theorems": [
    "inject_law",
    "inject_uniform_bounded",
    "noisy_frame_columns",
    "inject_missing_directory",
    "inject_keeps_data_refuted"
   ],
   "note": "Proved for every law of the noise and every directory name except the empty one and a dot, for which the directory of the data itself is emptied (refuted clause)."
  },
  {
   "property": "C75",
   "status": "partial",
   "theorems": [
    "build_tensor_reads",
    "store_tensor_reads",
    "build_tensor_full",
    "strain_tensor_complete_partial",
    "strain_tensor_incomplete_refuted",
    "strain_tensor_count_refuted",
    "invariants_principal",
    "invariants_j2"
   ],
   "note": "Proved for complete lists of components. A strain tensor is also built from an incomplete list of the right length (a repeated component), with zeros for what is missing; a list of the wrong length for the problem ends in TypeError because the error message itself is built wrongly (refuted clauses)."
  },
  {
   "property": "C76",
   "status": "partial",
   "theorems": [
    "stress_path_law",
    "recurrent_model_agrees",
    "elastic_response_3d",
    "elastic_total_strain_refuted",
    "unavailable_variable_refuted"
   ],
   "note": "Proved for every material and path. Refuted: a nonzero strain in the first row of the path is not part of the response, so Hooke's law of the total strain fails there; and a requested state variable that the model lacks is kept as zeros on a one-step path, silently dropped on longer ones, or ends in KeyError in the script for noisy data sets from the third time on."
  },
  {
   "property": "C77",
   "status": "partial",
   "theorems": [
    "dataset_first_successes",
    "dataset_all_successful",
    "dataset_ten_failures",
    "known_names",
    "dataset_unknown_names",
    "dataset_empty_refuted",
    "strain_dataset_law",
    "strain_dataset_failure",
    "regenerate_same",
    "csv_dataset_law",
    "csv_dataset_read",
    "csv_to_files_refuted",
    "csv_no_stress_refuted",
    "csv_bad_name"
   ],
   "note": "Proved except: a data set without samples fails, csv data cannot be stored as files, and csv data without stress columns fail (refuted clauses)."
  },
  {
   "property": "C78",
   "status": "partial",
   "theorems": [
    "noisy_dataset_law",
    "noisy_dataset_null",
    "noisy_uniform",
    "noisy_gaussian",
    "noisy_uniform_bounded",
    "denoised_first_row",
    "noisy_heteroscedastic_import_refuted",
    "noisy_scaler_noise_refuted",
    "denoised_scaler_refuted",
    "noisy_normaliser_refuted"
   ],
   "note": "Proved without a data scaler. Refuted: heteroscedastic noise fails when the generator is imported; with a scaler the stored noise is not the difference of the strains and denoised strains start at the normalised strain; the noise of a path depends on the paths before it through the normaliser."
  },
  {
   "property": "C79",
   "status": "partial",
   "theorems": [
    "vdp_step_3d",
    "vdp_plane_strain",
    "vdp_failure_persists",
    "vdp_agrees_with_standard",
    "vdp_linear_agrees",
    "vdp_isochoric_apex_fails",
    "vdp_yield_condition_refuted",
    "vdp_standard_agreement_refuted"
   ],
   "note": "Proved in full except two clauses. The deviatoric stress is scaled with a square root clamped at 1e-4: below, a successful update violates the yield condition (refuted by 50 % of the cohesion). The loop accepts the first iterate, which the standard update still corrects: the agreement holds when that iterate is not accepted or is a fixed point (always for linear hardening), and is refuted otherwise."
  },
  {
   "property": "C80",
   "status": "partial",
   "theorems": [
    "vdp_elastic_tangent_is_derivative",
    "vdp_apex_tangent_is_derivative",
    "vdp_cone_tangent_partial",
    "vdp_cone_tangent_wrong",
    "vdp_cone_tangent_refuted"
   ],
   "note": "Proved for elastic updates (any law) and returns to the apex (linear hardening). On the cone the code adds 1e-8 to each component of the deviator before taking its norm: the derivative is the formula of the code with the exact norm, which differs from the norm used by at most 3e-8 (partial), and the returned tangent is not the derivative (refuted; a general criterion is vdp_cone_tangent_wrong)."
  },
  {
   "property": "C81",
   "status": "partial",
   "theorems": [
    "specimen_mesh_round_trip",
    "specimen_mesh_refused",
    "specimen_mesh_sound",
    "specimen_labels_refuted",
    "specimen_coverage_refuted",
    "specimen_layout_refuted"
   ],
   "note": "The round trip and the refusals are proved. Refuted: the labels of the nodes are ignored (position counts), a repeated element label overwrites and hides a missing element, and comments, lower case keywords or continued lines fail."
  },
  {
   "property": "C82",
   "status": "partial",
   "theorems": [
    "links_file_round_trip",
    "links_file_written_iff",
    "links_mesh_of_simulation",
    "links_several_types",
    "links_quad8_refuted",
    "links_title_refuted",
    "links_phase_refuted",
    "links_width_refuted",
    "links_free_dof_refuted"
   ],
   "note": "Proved for titles without the keywords, phases below 1000, values narrower than the format and every component prescribed. Refuted: a title with a keyword breaks the reader, phases from 1000 on shift the connectivities, a value of full width merges with its code, a free degree of freedom ends in TypeError, QUAD8 is not converted."
  },
  {
   "property": "C83",
   "status": "partial",
   "theorems": [
    "node_data_in_time_order",
    "pointwise_sets_law",
    "pointwise_sets_refused",
    "history_flags_agree",
    "history_in_time_order",
    "specimen_history_law",
    "dirichlet_sets_law",
    "set_label_injective",
    "dirichlet_sets_overlap",
    "dirichlet_sets_beyond",
    "history_missing",
    "numerical_data_iff",
    "numerical_data_refused",
    "update_history_law",
    "default_sets_refuted",
    "history_backup_refuted",
    "history_labels_refuted",
    "node_zero_refuted"
   ],
   "note": "Proved except: the sets of nodes are those of one specimen (the code fails on every mesh with fewer than 1712 nodes), a backup copy of a history file counts as a further time step, the node labels in the files are ignored, and node zero constrains the last node."
  },
  {
   "property": "C84",
   "status": "partial",
   "theorems": [
    "load_count",
    "stepped_path",
    "stepped_refused",
    "even_loading",
    "stepped_bounds",
    "written_drift",
    "written_total_refuted",
    "fit_exists",
    "polynomial_path",
    "polynomial_drift"
   ],
   "note": "Proved for the exact factors; for the printed ones (nine digits) the drift is bounded by the printing error times the number of increments. Refuted: that the printed factors sum up to exactly the load (three increments end below one, six above)."
  },
  {
   "property": "C85",
   "status": "partial",
   "theorems": [
    "input_file_fresh",
    "input_params_law",
    "default_params_problem",
    "check_phases_iff",
    "run_success",
    "run_stale_refuted",
    "node_results_law",
    "results_agree_with_history",
    "global_results_law",
    "no_results",
    "single_node_refuted",
    "truncated_file_refuted",
    "trailing_slash_refuted"
   ],
   "note": "Proved for at least two nodes and complete files. Refuted: the exit code of the binary is not checked and the screen file of an earlier run counts as success; a specimen of one node ends in IndexError; a truncated file with a single row is repeated for all nodes; a directory with a trailing slash loses the name of the simulation."
  },
  {
   "property": "C86",
   "status": "partial",
   "theorems": [
    "vforward_agrees",
    "vforward_normalised",
    "state_history_law",
    "vforward_refused",
    "normalised_modes_refuted",
    "stored_strain_refuted"
   ],
   "note": "Proved for models without data scalers; with scalers the vectorised mode is that of the physical model (vforward_normalised), but the sequential mode feeds physical strains to the model and takes its normalised outputs for stresses, so the modes disagree, and the stored history holds the normalised strain beside the physical stress (refuted clauses)."
  },
  {
   "property": "C87",
   "status": "partial",
   "theorems": [
    "vbar_strain_value",
    "vbar_3d",
    "vbar_2d_uniform",
    "vbar_patch_refuted"
   ],
   "note": "Proved in three dimensions. In plane strain the deviator is taken with a half of the trace while the volumetric part has a third of it: a uniform strain loses a sixth of its trace and the patch test fails (refuted); the exact value is vbar_strain_value."
  },
  {
   "property": "C88",
   "status": "partial",
   "theorems": [
    "sample_name_found",
    "directory_metrics_values",
    "directory_order_irrelevant",
    "unknown_mean_refused",
    "nrmse_null_sample",
    "sample_name_refuted",
    "no_samples_refuted"
   ],
   "note": "Proved for prediction files with ground truth of the same number of features. Refuted: names such as prediction_sample_12pkl or with leading zeros count as samples; in a directory without prediction files any metric, known or not, is returned as an empty tensor; a sample with a null ground truth makes the normalised metric NaN."
  },
  {
   "property": "C89",
   "status": "partial",
   "theorems": [
    "mean_file_round_trip",
    "convergence_rows",
    "convergence_other_process",
    "nan_metric_refuted",
    "same_size_refuted",
    "label_refuted",
    "convergence_skip_refuted"
   ],
   "note": "Proved for finite values, metric names of word characters and labels without the keyword: the first process with the number of samples is returned. Refuted: a NaN stops the reader, a second process with the same number of samples can never be read, a label with the keyword stops the reader, and a process of another name stops the convergence data (the test is on the builtin id)."
  },
  {
   "property": "C90",
   "status": "partial",
   "theorems": [
    "prediction_arrays_law",
    "prediction_arrays_all",
    "prediction_arrays_order",
    "prediction_arrays_mse",
    "prediction_arrays_refused",
    "time_series_law",
    "time_series_of_models",
    "model_samples_in_order",
    "acc_p_strain_refuted",
    "no_ground_truth_refuted",
    "leading_zero_refuted",
    "model_copy_refuted"
   ],
   "note": "Proved for stress and plastic strain components. Refuted: accumulated plastic strains always fail (the prediction files never hold the order of the components); a missing ground truth ends in TypeError before the check that refuses it; a file number with leading zeros is counted but its file not found; a copy of a model directory counts as a further model."
  },
  {
   "property": "C91",
   "status": "partial",
   "theorems": [
    "sequential_paths_law",
    "vectorised_paths_law",
    "vectorised_label_refused",
    "local_paths_modes_agree",
    "local_paths_modes_permuted",
    "local_paths_finite",
    "element_paths_finite",
    "local_paths_selection_refuted"
   ],
   "note": "Proved: contents of every stored path in both modes; the modes agree for all elements or increasing labels of the mesh, and up to order for distinct labels. Refuted: another order of labels changes the vectorised data set only, a repeated label is stored twice by it, label 0 is its last element and a label beyond the mesh an error, where the sequential mode ignores both."
  },
  {
   "property": "C92",
   "status": "partial",
   "theorems": [
    "dirichlet_check_iff",
    "set_specimen_iff",
    "set_specimen_result",
    "refused_codes_unchanged",
    "list_weights_dropped",
    "reaction_hist_law",
    "reaction_columns",
    "reactions_total",
    "refused_call_refuted",
    "reaction_columns_refuted"
   ],
   "note": "Proved: exact acceptance condition, the state left by an accepted call, and the reaction table for labels 0..k-1 that do not change. Refuted: a call refused for its weights or force bounds has already replaced the specimen; without free degrees of freedom column SET 0 is label 1; codes that change after the first step are ignored."
  },
  {
   "property": "C93",
   "status": "partial",
   "theorems": [
    "collected_law",
    "labels_differ",
    "collected_within_bounds",
    "label_collision_refuted"
   ],
   "note": "Proved for numbered models whose submodel names are not extensions of each other by an underscore; otherwise two parameters can share a label and the second replaces the first (refuted)."
  },
  {
   "property": "C94",
   "status": "partial",
   "theorems": [
    "vlou_agrees_with_standard",
    "vlou_step_3d",
    "vlou_singular_deviator_raises",
    "vlou_null_increment_refuted",
    "vlou_negative_b_refuted"
   ],
   "note": "Proved: when b and 3ab are at least 1e-6 (the bound by which the vectorised class replaces them) every successful vectorised update is the result of the standard update with the same laws (slopes of the parameters replaced by zero when they are assumed constant), and in three dimensions every update is an elastic step, a return to the surface, a return to the apex, or a reported failure. Refuted: both branches are always evaluated, so a trial stress whose deviator is singular, as that of a null increment from the virgin state, raises although the standard class returns it unchanged; a negative b is replaced by its absolute value and returned to the opposite apex."
  },
  {
   "property": "C95",
   "status": "partial",
   "theorems": [
    "inp_conversion_agrees",
    "dat_to_inp_lines",
    "inp_round_trip",
    "inp_no_way_back_refuted",
    "inp_every_mesh_refuted",
    "inp_constraints_refuted"
   ],
   "note": "Proved: for every Abaqus file that both readers accept the converted Links file has the nodes, the elements in the order of their labels and the constrained degrees of freedom of the specimen reader, for numbers printed with a leading blank; a mesh written as Abaqus file is converted with its coordinates (rounded), connectivities and prescribed displacements. Refuted: no converted file states the element type, so that none can be converted back (NameError); element labels other than 1..n and null displacements without a value stop the conversion; constraints of nodes outside the mesh are written and those of higher degrees of freedom leave nodes without displacements."
  },
  {
   "property": "C96",
   "status": "partial",
   "theorems": [
    "uniaxial_code",
    "uniaxial_prescription",
    "uniaxial_rows",
    "uniaxial_unknown",
    "uniaxial_group",
    "uniaxial_group_lines",
    "uniaxial_file",
    "uniaxial_specimen",
    "uniaxial_nodes",
    "uniaxial_compression_refuted",
    "uniaxial_width_refuted"
   ],
   "note": "Proved: the cascade of twelve cases prescribes each component exactly on its faces, the rows are the nodes on the faces in order, and the written section is read back as those prescriptions when the numbers are narrower than their fields; the reaction group is the loaded face for positive loads. Refuted: for a compressive load the reaction group is empty (the test is without absolute value), and its displacement fills the field, so that the values of the line run together and cannot be read."
  },
  {
   "property": "C97",
   "status": "partial",
   "theorems": [
    "links_elastic_section",
    "links_von_mises_section",
    "links_drucker_prager_section",
    "links_lou_section",
    "links_material_unknown",
    "links_material_missing",
    "links_materials_clean",
    "links_materials_sections",
    "links_materials_free",
    "links_hardening_points",
    "links_table_points",
    "links_linear_hardening_exact",
    "links_hardening_error",
    "links_hardening_error_tight",
    "links_one_point_refuted",
    "links_beyond_two_refuted",
    "links_wide_number_refuted"
   ],
   "note": "Proved: every section is read back as its descriptors in the documented order, missing descriptors and unknown models are refused, no line of a section is mistaken for a keyword of the file, the table has the requested points from 0 to 2, keeps linear hardening exactly and any law of slopes at most L up to L/(n-1). Refuted: one hardening point loses the hardening without an error; no law is described beyond plastic strain 2; a negative number of three exponent digits runs into the next one."
  },
  {
   "property": "C98",
   "status": "partial",
   "theorems": [
    "pi_isometry",
    "pi_inverse",
    "pi_invariants",
    "von_mises_circle",
    "von_mises_agrees",
    "drucker_prager_law",
    "drucker_prager_cone",
    "drucker_prager_shear",
    "lou_is_von_mises",
    "lou_is_drucker_prager",
    "lou_agrees",
    "yield_isotropic",
    "normalised_sign",
    "name_order",
    "unknown_model",
    "batch_values",
    "unloaded_inside",
    "von_mises_in_grid",
    "same_yield_stress_refuted",
    "unloaded_outside_refuted",
    "grid_short_refuted",
    "null_plane_refuted"
   ],
   "note": "Proved: pi-stresses are an orthonormal frame whose third axis is the pressure, the von Mises domain is the circle of radius sqrt(2/3) sy at every pressure (up to the perturbation 1e-10) and the Drucker-Prager domain the cone of radius sqrt 2 (sy - sin f pi3), Lou-Zhang-Yoon contains both, all are isotropic, normalisation keeps the domain, von Mises surfaces fit in the grid. Refuted: Drucker-Prager without friction is not von Mises of the same yield stress; the unloaded state lies outside for yield stresses below sqrt(3e-10); the grid ends a step before its upper limit; the second side of the null planes is negative."
  },
  {
   "property": "C99",
   "status": "partial",
   "theorems": [
    "react_set_contents",
    "react_sets_cover",
    "react_labels_distinct",
    "react_sets_total",
    "react_compare",
    "react_displayed",
    "react_elements",
    "plotted_all",
    "plotted_list",
    "copy_labels_ok",
    "copy_labels_values",
    "copy_labels_length",
    "react_later_codes_refuted",
    "plotted_default_refuted",
    "plotted_node_zero_refuted",
    "copy_labels_atomic_refuted",
    "copy_labels_nodes_refuted",
    "copy_labels_missing_refuted"
   ],
   "note": "Proved: every set holds the nodes of one initial code in one direction with their net reaction, every node is in a set of every direction, labels differ, the sets share out all reactions, the comparison pairs each history with the time steps, exactly the sets of code 0 are left out; labels are copied row by row exactly when the lengths agree and every source is labelled. Refuted: codes after the first step are ignored; the documented default of plotting all nodes is refused; node 0 is plotted as the last node; a refused copy has already changed earlier files; labels go to other nodes when the order differs; a shorter source leaves missing labels."
  },
  {
   "property": "C100",
   "status": "partial",
   "theorems": [
    "finder_run",
    "finder_files_keep",
    "finder_epochs",
    "finder_save_every_zero",
    "finder_constant_rate",
    "finder_scheduled_rate",
    "loss_record_roundtrip",
    "lr_record_roundtrip",
    "lr_record_missing",
    "finder_first_nan_refuted",
    "finder_one_epoch_refuted",
    "finder_rate_refuted",
    "finder_best_state_refuted"
   ],
   "note": "Proved: the exact contents of the histories and state files of every run up to the last epoch, which is the maximum or the first one with converged parameters; the saved best epoch is the last, and the returned one the first, with the least loss among the losses that are numbers; bounds enforced after every update hold for everything on file; histories are read back from their record. Refuted: a first loss that is NaN prevents any best state and ends the call in an error; a run of one epoch ends in a division by zero; with a scheduler the recorded rate is that of the next epoch; the best state on file is the one after the best epoch's update and can have a larger loss."
  },
  {
   "property": "C101",
   "status": "partial",
   "theorems": [
    "edge_labels_bijective",
    "corners_bc_dictionary",
    "corners_bc_refusal",
    "random_bc_count",
    "edges_orders_option",
    "edges_range_option",
    "averaged_edges_agree",
    "plane_edges_unmatched",
    "rotation_angle_exact",
    "rotation_angle_range",
    "mean_rotation_range",
    "mean_rotation_common",
    "no_conditions_no_constraint_refuted",
    "random_bc_rigid_motion_refuted",
    "edges_labels_checked_refuted",
    "edge_displacement_kept_refuted",
    "mean_rotation_opposite_refuted"
   ],
   "note": "Proved: labels are a bijection with the edges, the dictionaries of corners and edges have exactly the documented effect and the first bad corner entry decides the exception; the random minimal set fixes three or six degrees of freedom; in three dimensions every edge has one other label, and the two are averaged between their common ends; rotation angles are exact. Refuted: without conditions nothing is fixed although a random minimal set is documented; some minimal sets leave a rigid motion free; unknown edge labels are ignored and ranges of any length accepted; a displacement given to one of the two labels of an edge is halved; the mean of two opposite rotations is zero, also near half a turn."
  },
  {
   "property": "C102",
   "status": "partial",
   "theorems": [
    "parameter_dict_exact",
    "parameter_dict_conflict",
    "parameter_dict_top",
    "path_name",
    "path_injective",
    "parameter_dict_overwrite_refuted"
   ],
   "note": "Proved: for names none of which is the beginning of another (as torch guarantees) every parameter is found at the path of its name and nothing else is, top keys keep their order, and names are recovered from paths. Refuted outside that condition: a name that is the beginning of an earlier one silently replaces all parameters below it, while the opposite order is refused."
  },
  {
   "property": "C103",
   "status": "partial",
   "theorems": [
    "tfact_read",
    "tfact_extra_rows",
    "tfact_no_section",
    "tfact_even",
    "tfact_of_written",
    "tfact_of_even",
    "scaled_history",
    "tfact_missing_rows_refuted",
    "tfact_comment_refuted"
   ],
   "note": "Proved: the history read from a section with as many increments as announced is the running sum of the factors at equal times, in particular for every loading written by the simulator; excess increments and files without a section are refused; scaling acts on the totals only and is invertible. Refuted: missing increments get a total of zero instead of the last one, and any line with the word (a title, a comment) is taken for the header."
  },
  {
   "property": "C104",
   "status": "partial",
   "theorems": [
    "polynomial_is_horner",
    "parameters_accepted",
    "parameters_refused",
    "parameters_well_posed",
    "shear_isotropic",
    "yield_bounds",
    "slope_bounds",
    "hard_table_law",
    "hard_table_ascending",
    "argmin_least",
    "draw_between_neighbours",
    "draw_covers_neighbourhood",
    "draw_in_bounds",
    "sample_material_exists",
    "training_on_grid",
    "hardening_saturates_refuted",
    "repeated_value_refuted"
   ],
   "note": "Proved: parameters are returned exactly for von Mises at 25 to 625 degrees and compositions in [0, 1]; every returned set is a well posed isotropic material (Young's modulus between 80 and 200 GPa, Poisson's ratio between 0.2 and 0.4, initial yield stress above 300 MPa, hardening slope above 3 GPa) whose table is strictly ascending and reproduces the linear law for plastic strains up to 2; draws around a grid value fill exactly the interval between its neighbours, stay within the bounds of any grid, and always have a material. Refuted: beyond a plastic strain of 2 the linear law is replaced by a constant; with a repeated grid value the draw misses the upper neighbour."
  },
  {
   "property": "C105",
   "status": "partial",
   "theorems": [
    "ratios_accepted",
    "trials_law",
    "generated_sets",
    "generate_succeeds",
    "ten_failures_refused",
    "separated_names",
    "collect_exact",
    "kept_law",
    "kept_all",
    "assembled_sets",
    "reduced_samples",
    "pipeline_sizes",
    "default_ratio_refuted",
    "library_use_refuted",
    "close_values_refuted",
    "unknown_type_first_refuted",
    "unknown_type_overwrites_refuted",
    "backup_copy_refuted",
    "integer_fraction_refuted"
   ],
   "note": "Proved: ratios are accepted exactly when they leave a random and a proportional path; every pair of grid values gets, for every type, the asked number of samples, the first int(n r) on random paths, on the grid for training and between the neighbours for validation and testing; generation succeeds for every admissible grid unless a sample fails ten times; assembly puts the samples of every known type, and of no other, in its directory, in the previewed number or the kept fraction, none twice. Refuted: without ratios every call is refused although all samples are documented to be random then; imported as a library the function ends in a NameError; grid values equal to two decimals share a directory and the earlier samples are lost; an unknown type ends in a NameError or replaces the data set assembled before it; a backup copy of a file doubles its samples; a fraction given as an integer is ignored."
  },
  {
   "property": "C106",
   "status": "partial",
   "theorems": [
    "forward_shape",
    "forward_unknown",
    "gru_forward",
    "uniaxial_path",
    "uniaxial_converged",
    "elastic_uniaxial",
    "uniaxial_unknown_model",
    "dataset_entries",
    "unconverged_silent_refuted",
    "first_strain_refuted",
    "loose_tolerance_refuted",
    "key_collision_refuted"
   ],
   "note": "Proved: the path has the prescribed axial strains from the second step on and no shear, the lateral strains of a step being the first Newton iterate that meets the criterion or the last one; for every causal material the returned stress of a converged step is uniaxial up to the tolerance times the strain; for linear isotropic elasticity the lateral strains and the axial stress are exactly those of Poisson's ratio and Young's modulus; stresses have the shape of the strains, the recurrent model sees temperature and composition at every step, and unknown models are refused; data sets of compositions in whole hundredths are all kept. Refuted: a step that does not converge is stored without notice; the first prescribed strain is ignored; a tolerance above the Lame constant leaves the bar laterally confined (the criterion compares a stress with a strain); compositions within the same hundredth overwrite each other."
  },
  {
   "property": "C107",
   "status": "partial",
   "theorems": [
    "folds_partition",
    "folds_refused",
    "fold_sizes_close",
    "cross_validation_otherwise",
    "cross_validation_refuted",
    "consecutive_folds_refuted"
   ],
   "note": "Proved: for every shuffle the k validation folds partition the samples, their sizes differ by at most one and are the documented ones, every training fold is the complement of its validation fold, both in increasing order, and exactly k < 2 and k > n are refused; were the model defined, the returned losses would be those of the folds in order, and only in the verbose mode. Refuted: the function reads the model before it assigns it and so ends in a NameError for every admissible call; the folds are not consecutive samples."
  },
  {
   "property": "C108",
   "status": "partial",
   "theorems": [
    "loss_read_back",
    "zero_loss_refuted",
    "no_loss_refused",
    "realisations_in_order",
    "uq_losses_exact",
    "fewer_realisations_refuted",
    "backup_realisation_refuted",
    "realisation_table_law",
    "listed_samples",
    "all_samples_first",
    "all_samples_second_refuted",
    "uq_trained",
    "uq_predicted",
    "missing_realisation_refuted"
   ],
   "note": "Proved: a written average loss other than zero is read back from the summary file, and a summary without a loss is refused; the realisations are found in numerical order whatever the order of the directory and the losses of the evaluation are those of the realisations in that order; the table of a sample has the time of the first realisation and one column per realisation; training saves every realisation in its own directory and prediction uses each one. Refuted: a loss of exactly zero is written as None and cannot be read; fewer realisations than announced end in an IndexError; a backup copy of a model directory counts as a realisation; all samples cannot be asked for with more than one prediction type; a missing realisation ends the prediction."
  },
  {
   "property": "C109",
   "status": "partial",
   "theorems": [
    "generated_patches",
    "stored_patches_again",
    "unsaved_patches_refused",
    "node_files_written",
    "node_file_refused",
    "patches_found",
    "patch_local_paths",
    "dataset_otherwise",
    "single_patch_refuted",
    "other_name_refuted",
    "no_dataset_refuted",
    "dotted_name_refuted"
   ],
   "note": "Proved: every patch is simulated in its own directory and no other directory changes; stored patches are simulated again with the same results and unsaved ones are refused; the node data are written in the order of the steps with node, coordinates, displacements and reactions, other widths are refused; two or more patches are found in the order of their numbers; with three more columns the data set would be the concatenation of the local paths of the patches, computed from displacements and reactions in the order of time. Refuted: the node data are written with 10 columns and read with 13, so no call ever builds a data set; the directory of a single patch is never found; the simulation has a fixed name, so patches of another name, such as the default one, are refused; names with a dot are not found."
  },
  {
   "property": "C110",
   "status": "partial",
   "theorems": [
    "force_disp_curve",
    "reaction_count_refused",
    "node_beyond_refused",
    "gauss_point_path",
    "narrow_file_refused",
    "out_dataset_law",
    "single_reaction_refuted",
    "node_next_refuted",
    "label_zero_refuted",
    "plane_dataset_refuted"
   ],
   "note": "Proved: the points of the curve are the displacement of the reference node and the reaction of the node group in the loading direction, step by step and multiplied, whatever the order of the directory, the other files and the other groups; another number of reactions is refused; the strain and stress tensors of a Gauss point, with tensorial shears, are recovered from every line, narrower files are refused, and the data set has the path of every file in order. Refuted: a single reaction is repeated for every step; the first label beyond the mesh escapes its check and ends in an IndexError; label zero stands for the last node; in two dimensions no Gauss point file can be read (TypeError)."
  },
  {
   "property": "C111",
   "status": "partial",
   "theorems": [
    "full_match_iff",
    "search_iff",
    "find_file_law",
    "file_not_found",
    "only_file_found",
    "find_file_refused",
    "script_pattern_names",
    "pipeline_pattern_names",
    "saved_dataset_found",
    "unnumbered_dataset_lost",
    "stale_dataset_refuted",
    "backup_dataset_refuted",
    "dotless_dataset_refuted"
   ],
   "note": "Proved: the matcher decides the language of every expression and the search with anchors; the file found is the first entry that the first successful pattern accepts, nothing is found exactly when no entry matches any pattern, and a file that alone matches is found in every order; missing directories and other arguments are refused; the exact names accepted by the two patterns of the code; a saved data set is found when no other file matches. Refuted: the file is not checked to be unique, so a data set saved again with another size leaves the stale file, and which is loaded depends on the directory order; backups match the pattern of the pipeline, and names without the dot that of the scripts; data sets saved without their size are not found."
  },
  {
   "property": "C112",
   "status": "partial",
   "theorems": [
    "step_decay_rate",
    "exp_decay_rate",
    "linear_rate",
    "decay_never_increases",
    "linear_default_refuted",
    "optimizer_choice",
    "scheduler_refused",
    "zero_step_refuted",
    "session_runs",
    "session_law",
    "stateless_resume_continues",
    "initial_file_refuted",
    "resumed_rate_refuted",
    "optimizer_state_refuted",
    "best_replaced_refuted",
    "load_removes_later"
   ],
   "note": "Proved: the rates of the three schedules in closed form at every epoch, never increasing for decaying arguments; the unknown optimizers, schedulers and missing arguments that are refused; a session trains from the requested state with the rates from the beginning of the schedule, its files hold the starting parameters, its own epochs, its last state and its best state; with a stateless optimizer and a constant rate a resumed training is the uninterrupted one. Refuted: the linear schedule raises the rate by default; a step size of zero is accepted and fails at the first update; resuming overwrites the initial state, restarts the schedule, loses the state of the optimizer and replaces a better best state."
  },
  {
   "property": "C113",
   "status": "partial",
   "theorems": [
    "loss_rows",
    "loss_rows_complete",
    "uq_rows",
    "uneven_realisations_refused",
    "single_realisation_refuted",
    "single_column_refuted",
    "parameter_rows",
    "missing_parameter_refused",
    "testing_sizes_equal",
    "min_max_bar",
    "distinct_sizes_curves",
    "equal_sizes_refuted",
    "listed_samples_plotted",
    "all_samples_one_type",
    "all_samples_types_refuted",
    "outside_sample_refused",
    "band_is_relative_error",
    "r2_at_most_one",
    "r2_is_one",
    "r2_unit_invariant",
    "perfect_constant_refuted",
    "constant_units_refuted",
    "normalize_affine",
    "normalized_band_refuted",
    "truth_columns"
   ],
   "note": "Proved: the rows of the convergence tables are the size and the loss, the realisations or the parameter of the same model, and missing parameters, uneven numbers of realisations and different testing sizes are refused; the error bars reach exactly the least and the greatest value; curves of distinct sizes are all kept; listed samples are plotted for all the types; the band holds exactly the points within the relative error; the coefficient of determination is at most 1, is 1 exactly for perfect predictions and does not depend on the units for values that vary; normalized values are an increasing affine image in [0, 1]; the array of several processes keeps every value. Refuted: a single realisation is silently repeated; models with equal sizes overwrite each other; all the samples cannot be asked for with two types; the coefficient of a perfect prediction of constant values is NaN and that of another one depends on the units; the band of the normalized plot is not the relative error."
  },
  {
   "property": "C114",
   "status": "partial",
   "theorems": [
    "objective_value",
    "no_early_stopping_refuted",
    "job_objective_read_back",
    "similar_name_refuted",
    "history_law",
    "history_complete",
    "missing_job_refused",
    "best_job",
    "one_process_plot",
    "last_history_refuted",
    "uneven_processes_refuted"
   ],
   "note": "Proved: the objective of a job is the best training loss or the average prediction loss, as the process says; it is read back from the summary of the job whatever the configuration that does not mention an objective; the history has the metrics of the jobs in the order of their numbers whatever the order of the directory and its other entries, and is complete (missing jobs and summaries are refused); the best job has the least metric and is the first with it; the plot of a process has its jobs, metrics and running minimum. Refuted: without early stopping every job ends in a NameError; a parameter whose name contains that of the metric is read in its place; several processes are all drawn with the metrics of the last one, and with other numbers of jobs the plot fails."
  },
  {
   "property": "C115",
   "status": "partial",
   "theorems": [
    "hybridized_model_iff",
    "arguments_override_file",
    "partial_scalers_refuted",
    "boolean_indices_refuted",
    "gru_hybridized_refuted",
    "gru_scalers_refused",
    "rcm_hybridized",
    "layer_hybridized",
    "hybridization_schemes_refuted",
    "scheme_descriptions"
   ],
   "note": "Proved: set_hybridized_model succeeds exactly under the stated conditions, its arguments replace those read from the model file, material layers and recurrent constitutive models are built as described, and the compositions of the hybridization schemes are the documented ones. Refuted: a GRU with data scalers cannot be hybridized because the class has no set_data_scalers, so no scheme of the training script runs; scalers given for the inputs only discard those of the outputs read from the file; booleans pass the check on indices."
  },
  {
   "property": "C116",
   "status": "partial",
   "theorems": [
    "features_option_effect",
    "features_option_widths",
    "plane_features_refuted",
    "features_option_known",
    "schedule_reaches_end",
    "schedule_decreases",
    "predict_batch_bounds"
   ],
   "note": "Proved: for every features option and every data set the input and output features of every sample, at every time, are the documented rows (concatenations, differences and invariants of the strain), no path of the data is changed, the widths are those given to the model for three-dimensional data, unknown options are refused, and the exponential schedule decreases from the initial to the final rate in the given number of epochs. Refuted: in two dimensions the width of the features is not that of the model."
  },
  {
   "property": "C117",
   "status": "partial",
   "theorems": [
    "plots_removed",
    "models_removed",
    "samples_removed",
    "samples_redumped",
    "noise_regrouped",
    "testing_shared",
    "no_dataset_refused",
    "noise_of_first_refuted",
    "absolute_subset_path",
    "relative_subset_path_refuted",
    "element_paths_own",
    "element_paths_selected_refuted"
   ],
   "note": "Proved: the scripts remove exactly the plots, models or sample predictions of the case studies, re-dump only sample predictions, regroup the noisy data sets of the sizes listed under the noise cases of the first one file by file, replace the testing data sets by the shared one, name the subsets beside the data set when its path is absolute, and list the indices of the Gauss points of an element when all elements are stored. Refuted: noise cases missing in the first data set are left behind and ones missing in another stop the script; with a relative path the directory is repeated; with a selection of elements the indices are those of another element."
  },
  {
   "property": "C118",
   "status": "partial",
   "theorems": [
    "denoised_law",
    "denoised_iff",
    "denoise_csv_law",
    "denoise_any_order",
    "denoised_range",
    "denoised_affine",
    "last_displacement_refuted",
    "initial_displacement_refuted",
    "denoise_keeps_data_refuted",
    "default_denoise_refused",
    "unknown_denoise_refused",
    "two_simulations_refuted",
    "plotted_node_law",
    "plotted_label_zero_refuted"
   ],
   "note": "Proved: every time step file is written again under its name, only the displacements change, they vanish at the first step and are afterwards the repeatedly filtered history of the same node and component; success exactly for non-empty frames of ten columns with equal numbers of nodes; no dependence on the directory order; bounds and affine stretches are kept by moving averages. Refuted: a displacement linear in time without noise misses its last value, a non-zero initial displacement is lost, an empty directory name or a dot removes the data, two simulations in one directory are merged, label 0 shows the last node."
  },
  {
   "property": "C119",
   "status": "partial",
   "theorems": [
    "table_ascending",
    "table_law_at_points",
    "table_error",
    "table_below_concave",
    "nadai_table_error",
    "table_saturates_refuted",
    "compared_laws_refuted",
    "custom_function",
    "discretizer_output",
    "discretizer_refuted",
    "compared_curves",
    "saved_comparison_refuted"
   ],
   "note": "Proved: the table of a function is accepted by the piecewise linear law, which is exact at its points, off by at most the change over one interval of a monotone function (a times the interval to the power b for the Nadai-Ludwik function) and below a concave one; the custom function is the Nadai-Ludwik one over the cohesion parameter; the file and figure hold the table; the comparison shows the yield stress of every law under its name. Refuted: past the last point the law saturates; the two laws compared by the script differ at every point because the code adds the offset twice; the linear option and a figure saved without being displayed raise NameError."
  },
  {
   "property": "C120",
   "status": "partial",
   "theorems": [
    "converted_names",
    "list_not_source",
    "samples_read",
    "converted_to_memory",
    "converted_again",
    "misnamed_dataset_refuted",
    "converted_to_lists",
    "list_sources_kept",
    "lists_not_converted_back_refuted",
    "unknown_format",
    "file_backed_samples",
    "file_backed_only",
    "sample_file_missing",
    "file_backed_back",
    "file_backed_again_refuted",
    "shared_samples_refuted",
    "rebased_paths",
    "moved_dataset_refuted",
    "update_is_identity"
   ],
   "note": "Proved: when the file names give the numbers of samples, the conversion to memory replaces every data set file (list, subset, in memory or file backed) by the same samples in memory and leaves all other files, converting again changes nothing, the conversion to lists writes the same samples beside the sources and leaves these; the file backed conversion writes every sample and holds the same samples, and converting back restores the data set; an unknown format is refused exactly when there is a source; the sample files of a moved data set are found exactly when all of them are in the new directory. Refuted: a file whose name gives another number replaces the data set with that number; lists are never read back; the file backed conversion cannot be run again since it replaces its source; two data sets of one directory share their sample files; the internal directory of a moved data set cannot be updated (TypeError)."
  },
  {
   "property": "C121",
   "status": "partial",
   "theorems": [
    "comp_index_iff",
    "column_iff",
    "compare_predictions_iff",
    "columns_law",
    "fill_iff",
    "compared_figures",
    "comparison_succeeds",
    "reference_alone_refuted",
    "no_models_refuted",
    "model_named_reference_refuted",
    "failed_model_refuted",
    "curve_iff",
    "predicted_curves",
    "label_ground_truth_refuted",
    "narrow_prediction_refused"
   ],
   "note": "Proved: the figures of the comparison show, for every component of the problem, the times and that component of the stress path of every model under its name, in order, then of the reference, whatever the order of the components; the comparison succeeds when there is a model and the paths are complete; the figures of the predictions show the component of the ground truth and of every model under its label, and predictions with missing components or other times are refused. Refuted: a reference without models and, in three dimensions, an empty comparison end in a NameError; a model named reference is not shown; the stress path of a model that fails is shown with zeros from the failure on; a model labelled Ground-truth replaces the ground truth."
  },
  {
   "property": "C122",
   "status": "partial",
   "theorems": [
    "export_frame_law",
    "exported_files",
    "response_pattern_iff",
    "exported_name_matches",
    "completed_paths_read",
    "exported_alone_refuted",
    "backup_table_refuted",
    "backup_read_twice_refuted",
    "sample_number_refuted",
    "read_csv_missing"
   ],
   "note": "Proved: the table of an exported path has its times, its strain components in their columns and zeros elsewhere, in two and three dimensions; paths of other sizes are refused; the files are numbered by path; once each table has its stresses the data set holds exactly the exported times and strains, in the order of the numbers, whatever the order and the other entries of the directory. Refuted: the exported files as such cannot be read (ZeroDivisionError); the pattern of the response files has no end, so backup copies are read as further samples; a table without stresses is left out and the later samples are numbered otherwise than their paths."
  },
  {
   "property": "C123",
   "status": "partial",
   "theorems": [
    "noise_curves",
    "noise_curves_right",
    "uneven_noise_cases",
    "noise_labels_checked",
    "first_sizes_refuted",
    "mixed_cases_refuted"
   ],
   "note": "Proved: for every grid of noise cases and training sizes and every positive number of realisations, the figure has one curve per noise case, in order and under its own label, whose points are the mean and range of the losses of that case's own models; the abscissae are right when the training sets of all noise cases have the same sizes; labels are as many as the noise cases; a number of models that is no multiple of the number of noise cases is refused. Refuted: the sizes of the other noise cases are ignored, so a model trained on another number of paths is drawn at the size of the first case; models listed by size first give mixed curves without an error."
  },
  {
   "property": "C124",
   "status": "partial",
   "theorems": [
    "lmu_update",
    "lmu_update_realisations",
    "lmu_prediction",
    "lmu_missing_data_refuted",
    "lmu_nothing_predicted_refuted",
    "lmu_plots_fail_refuted",
    "noisy_grid_iff",
    "noisy_grid_stops_refuted",
    "noisy_case_trained"
   ],
   "note": "Proved: an update succeeds exactly when the three data sets are found; it leaves them unchanged, removes the working directories and has exactly the asked realisations, each with its model and the prediction of that model; prediction alone keeps the models and other predictions; the noisy script succeeds exactly when each case does, and each case has its own realisations. Refuted: a missing data set is noticed only after the earlier model and predictions were removed; prediction alone without realisations succeeds with no prediction; failing plots leave the working directories; one failing case leaves the later cases undone."
  },
  {
   "property": "C125",
   "status": "partial",
   "theorems": [
    "ring_segments",
    "ring_length",
    "area_affine",
    "centroid_affine",
    "rigid_motion_centroid",
    "reference_ring",
    "homogeneous_admissible",
    "clockwise_refuted",
    "inverted_brick_refuted",
    "connected_iff",
    "connected_number",
    "inner_node_refuted"
   ],
   "note": "Proved, for all numbers and positions of nodes: the boundary ring of a two-dimensional patch is closed and runs once through each step of each edge; its area and centroid are those of the patch; under affine deformations the area is multiplied by the determinant and the centroid moves with the map, so that a rotation about the centroid followed by a translation moves the centroid by the translation; homogeneous deformations of valid rings are admissible exactly when the determinant is positive; the connected nodes are exactly the neighbouring existing nodes. Refuted: the ring is counter-clockwise, not clockwise as documented; in three dimensions every deformation is admissible, also an inverted one; inner nodes of Lagrangian elements are reported as connected by element edges."
  },
  {
   "property": "C126",
   "status": "partial",
   "theorems": [
    "check_iff",
    "check_passes",
    "swapped_derivatives_refuted",
    "unbalanced_derivatives_refuted",
    "positive_points_refuted"
   ],
   "note": "Proved, for all elements and random points: the check passes exactly when the values at the nodes and the two sums are within the stated tolerances, and it passes for every element of the library whatever the points. Refuted that a passed check means correct shape functions: derivatives with exchanged directions or unbalanced in each direction pass at all points, since all components are summed together, and so do shape functions that do not sum to one at negative coordinates, since the points are drawn from the unit cube."
  },
  {
   "property": "C127",
   "status": "partial",
   "theorems": [
    "preview_rows",
    "preview_number",
    "preview_step_iff",
    "preview_agrees",
    "run_training_size",
    "preview_too_short_refuted",
    "preview_ratio_refuted",
    "preview_too_long_refuted",
    "preview_train_refuted"
   ],
   "note": "Proved, for all parameters, data set sizes, permutations and losses: the previewed sizes add up and follow the schedule; there are between one and the maximum number of iterations plus one rows; as far as both go, preview and run have the same development and unused sizes; the run rounds the training size up and the preview down. Refuted: the preview ends before the run (minimum testing size, minimum ratio), goes on after the run has ended (leftover samples counted to the testing data set), and announces smaller training data sets."
  },
  {
   "property": "C128",
   "status": "partial",
   "theorems": [
    "losses_in_order",
    "chosen_are_smallest",
    "losses_refused",
    "missing_sample_refuted",
    "second_file_refuted"
   ],
   "note": "Proved, for all directories: the losses come in the order of the sample numbers whatever the listing order and the other files; when every tested sample has its file the chosen positions are distinct and those of the smallest losses; a directory without results or with results without loss is refused. Refuted when a file is missing or doubled: positions instead of sample numbers are used, so that other samples are pruned."
  },
  {
   "property": "C129",
   "status": "partial",
   "theorems": [
    "record_law",
    "run_record",
    "summary_law",
    "size_table_law",
    "plots_law",
    "unused_first_point",
    "threshold_refuted",
    "no_testing_refuted"
   ],
   "note": "Proved, for all prunings, testing types, losses and errors: every iteration has its entry with the sizes of its data sets and the values of its testing types; development and unused, and training and validation shares add up, in the record and in the summary; the plotted tables hold the errors over the share of the full data set, with the threshold above the first error; the curve of the unused data has no first point. Refuted: without the errors of the first iteration the plots with threshold fail with a TypeError although the losses are there, and a pruning without testing types cannot be plotted (NameError)."
  },
  {
   "property": "C130",
   "status": "partial",
   "theorems": [
    "lode_bounds",
    "lode_value",
    "triax_mean",
    "uniaxial_law",
    "triax_nan_iff",
    "principal_sorted",
    "pi_stress_law",
    "principal_figure_law",
    "pi_figure_law",
    "invariant_data_law",
    "units_refuted",
    "lengths_refuted",
    "added_zeros_refuted"
   ],
   "note": "Proved, for all stress tensors with real eigenvalues: the principal stresses are the eigenvalues in descending order; the triaxiality is the mean stress over the von Mises stress, the Lode parameter lies in [-1, 1] and is the normalised third invariant (1/3 and 1 in uniaxial tension); the pi stresses in any order of the principal stresses are the hydrostatic part and a vector with the magnitude of the deviatoric part; with paths of the same length the figures and distributions hold exactly these values. Refuted: the absolute tolerance on J2 makes the result depend on the units; paths of different lengths raise ValueError; the distributions of paths of different lengths contain null rows of no path."
  },
  {
   "property": "C131",
   "status": "partial",
   "theorems": [
    "loss_figure_law",
    "loss_figure_shown",
    "loss_figure_log",
    "loss_lr_law",
    "parameter_figures_law",
    "standard_plots_law",
    "unbounded_parameter_refuted",
    "plots_without_rates_refuted"
   ],
   "note": "Proved, for all numbers and lengths of histories: the loss figure has one labelled curve for each process with exactly the epochs that have a value, also with logarithms; the learning rate figure has all rates and histories of other lengths are refused; every parameter has its own file, curve and bounds; the plots of a saved training show its losses, validation losses and rates. Refuted: a parameter without bounds raises KeyError for all parameters; a record without learning rates has no plot of its losses either."
  },
  {
   "property": "C132",
   "status": "partial",
   "theorems": [
    "check_scalers_iff",
    "checked_channel",
    "own_scaler",
    "checked_model_fails_refuted"
   ],
   "note": "Proved, for all models, scalers and features: the check passes exactly when every model of normalised features has the scalers it needs and otherwise raises RuntimeError; a checked channel whose normalised models have the method data_scaler_transform is evaluated to the composition of residual connection, normalisation, model and denormalisation; the output of the hybrid model is normalised with its own scaler or refused. Refuted: a model that passes the check but whose class lacks the method (all recurrent classes) fails in every evaluation."
  },
  {
   "property": "C133",
   "status": "partial",
   "theorems": [
    "reactions_by_time",
    "reactions_by_displacement",
    "reference_refused",
    "reference_zero_refuted",
    "loss_components_law"
   ],
   "note": "Proved, for all boundary condition codes, forces, displacements and numbers of nodes, dimensions and times: every Dirichlet set has its own file with one point for each time, the net reaction force over the time step or over the displacement of the reference node; a label after the last node is refused; the figure of the loss components has one curve for each row of the stored history, under distinct labels. Refuted: label 0 is not refused, the displacement of the last node is shown instead."
  },
  {
   "property": "C134",
   "status": "partial",
   "theorems": [
    "eq_stress_iff",
    "eq_strain_iff",
    "uniaxial_eq_refuted",
    "hydrostatic_eq_refuted",
    "eq_figure_law",
    "eq_figure_shown",
    "short_path_refuted",
    "finite_figure_refuted",
    "component_figure_law",
    "state_figure_law",
    "single_state",
    "state_numbers",
    "state_components",
    "mixed_state_refuted",
    "single_value_refuted"
   ],
   "note": "Proved, for all tensors, paths and components: every path has its curve with the plotted equivalent strain and stress at each of its times; these are the von Mises values exactly when the mean value is zero or three times the mean value is the sum of the shear components; the figure of the components shows each component over the times; the figure and histogram of a state variable show exactly its values. Refuted: the mean value is subtracted from all components, so uniaxial tension is shown with the square root of two times its stress and a hydrostatic stress with three times its mean value; a shorter path goes back to the origin; the figure of finite strains shows zeros; one history with a list of paths of the same length raises TypeError or IndexError instead of RuntimeError; a path of one value is shown at all times."
  },
  {
   "property": "C135",
   "status": "partial",
   "theorems": [
    "tex_str_law",
    "tex_str_latex",
    "tex_str_idempotent",
    "enclosure_refuted",
    "plot_xy_law",
    "cycle_style_iff",
    "styles_distinct",
    "styles_repeat_refuted",
    "min_max_band",
    "mean_std_band",
    "nan_realisation_refuted",
    "plot_xny_law"
   ],
   "note": "Proved, for all data arrays, labels and strings: odd numbers of columns and other numbers of labels are refused, otherwise every pair of columns is a curve with its points, label and style; styles repeat exactly every 42 curves; the shaded area of min-max goes from the least to the greatest realisation and contains the mean, that of mean-std is symmetric with half width 1.96 standard deviations and empty exactly for equal realisations; without LaTeX exactly the dollar signs at the ends are removed. Refuted: a formula followed by text keeps a dollar sign; curves 42 apart look the same; one NaN realisation leaves the mean of the point out."
  },
  {
   "property": "C136",
   "status": "partial",
   "theorems": [
    "chart_refused",
    "chart_law",
    "default_bars_apart",
    "wide_bars_refuted",
    "group_label_refuted",
    "group_label_two",
    "box_plots_law",
    "box_plots_refused"
   ],
   "note": "Proved, for all numbers of groups, data sets and values: a chart is refused exactly when a data set does not have one value for each group (or averages of nothing are asked for); otherwise every value has exactly its bar, every group its label and every average line is the mean; bars of the default width never overlap; every column of box plots has its box and label, in one subplot or its own. Refuted: bars of a given width whose group is wider than one overlap those of the next group; the label of a group is under the middle of its bars only for two data sets; box plots of no columns in subplots use an unbound name."
  },
  {
   "property": "C137",
   "status": "partial",
   "theorems": [
    "boundary2_iff",
    "boundary3_iff",
    "edges3_iff",
    "inside_faces_iff",
    "boundary3_count",
    "serendipity_edges",
    "prescribed_iff",
    "missing_node_refuted"
   ],
   "note": "Proved, for all shapes and matrices of nodes: the boundary labels are, without repetition, exactly those with an index at an end of its dimension, the edge labels exactly those with at least two, and the other boundary nodes of a mesh with distinct labels are exactly inside one face; their numbers are abc-(a-2)(b-2)(c-2) and 4(a+b+c)-16; edges of quadratic meshes have all their nodes; a patch is accepted exactly when all prescribed nodes are on the boundary. Refuted (outside meshes made by the generator): in two dimensions label 0 of a missing boundary node is not left out, and is accepted as a prescribed node."
  },
  {
   "property": "C138",
   "status": "partial",
   "theorems": [
    "setup_not_ready",
    "setup_ready",
    "base_datasets_kept",
    "earlier_pruning_refuted"
   ],
   "note": "Proved, for all file systems, directories and testing types: without the pruning, base, training or a requested testing directory, or with an unknown type, RuntimeError is raised and nothing changes; otherwise the results are the named directories, every testing type has its directory (none for the unused data), the output directories exist, and all files and directories outside them, in particular the base data sets, are kept. Refuted: pruned data sets of an earlier pruning are removed without notice."
  },
  {
   "property": "C139",
   "status": "partial",
   "theorems": [
    "xyz_refused",
    "xyz_law",
    "scatter_default_refuted",
    "scatter_bars",
    "histogram_law",
    "histogram_label_refuted"
   ],
   "note": "Proved, for all data arrays and labels: every three columns are one curve with its points and label, other numbers of columns or labels are refused; with error bars every data array is a series with its label whose bars go from the least to the greatest realisation around the mean; every data set has its histogram and a legend is drawn exactly when there is a label. Refuted: without error bars (the default) the scatter plot is empty for all data; the labels of histograms are never passed on, so no histogram has its label in the legend."
  },
  {
   "property": "C140",
   "status": "partial",
   "theorems": [
    "convex_lines",
    "convex_arrows",
    "convex_arrow_count",
    "convex_domain",
    "arrows_off_refuted"
   ],
   "note": "Proved, for all boundaries, paths and domains: the boundary and every path have their line with their points and label (path lines are hidden exactly when arrows are asked for), the arrows are exactly those from every point of a path to the next one, n - 1 for n points, and the rectangle has the limits of the search domain as corners. Refuted: the arrows cannot be switched off, they are drawn for every path of two points or more whatever the option."
  },
  {
   "property": "C141",
   "status": "partial",
   "theorems": [
    "processes_law",
    "display_is_file",
    "failing_process",
    "saving_refused",
    "processes_metrics",
    "updated_metrics_refuted",
    "default_saving_refuted"
   ],
   "note": "Proved, for all processes, directories, metrics and earlier files: every process has the number of samples and the mean metrics (C89) of its own directory, in order; saving appends one block for each process and keeps what was there, a new file has a title; the display shows the same text as a new file; the first failing process decides the error, the blocks before it stay and none of the later ones are added; a missing directory is refused. Refuted: after a second run with changed predictions every reader still gets the metrics of the first; saving with the default directory always raises TypeError."
  },
  {
   "property": "C142",
   "status": "partial",
   "theorems": [
    "strain_figures_law",
    "strain_figures_refused",
    "unequal_paths_refuted",
    "dataset_plots_law",
    "mixed_states_refuted",
    "stress_names_refuted"
   ],
   "note": "Proved, for all data sets, components and paths of the same length: each of the first five samples (and no other) has its figures of strains and stresses under its own name, with every component over its times; the figure of the state variable shows that of every sample over its own times, and there is none if no sample has it; other numbers of histories and paths are refused. Refuted: a path among the first five that is shorter than the longest one leaves all without figures (ValueError); if only some samples have the state variable the call fails with RuntimeError although the code means to skip the others; stress curves are named after the strain components."
  },
  {
   "property": "C143",
   "status": "partial",
   "theorems": [
    "norm_figure_law",
    "norm_hist_law",
    "inc_figure_law",
    "inc_origin_refuted",
    "inc_hist_refuted",
    "finite_increments_refused",
    "comp_hists_law",
    "pair_figure_law",
    "transposed_pair_refuted"
   ],
   "note": "Proved, for all dimensions, symmetric component orders and paths, also of different lengths: the norm figure shows the norm of the tensor at each time of each path and nothing after its end, and its distribution has exactly these values; the figure of the increments shows from the second time on the norm of the difference to the time before; the distribution of a component has its values of all paths; the figure of a pair shows both components at each time. Refuted: in the figure of the increments every path starts at the origin whatever its first time is, and a shorter path goes back to it; the distribution of the increments has one zero too many for each path; finite strains have no increments; an order with 31 instead of 13 is valid but its pairs cannot be plotted."
  }
 ]
}