{
 "claims": [
  {
   "property": "C01",
   "status": "proved",
   "theorems": [
    "c01_timer_visits_every_point_once",
    "c01_timer_last_point_close",
    "c01_end_overshoot_refuted"
   ],
   "note": "exact rational arithmetic; C74 has the doubles; the end may be overshot by less than half a step when the interval is not a multiple of the step (refuted variant)"
  },
  {
   "property": "C02",
   "status": "proved",
   "theorems": [
    "c02_labels_are_the_times",
    "c02_listed",
    "c02_digits_least",
    "c02_digits_follow_step",
    "c02_label_error",
    "c02_labels_collide_refuted"
   ],
   "note": "holds when the start has no more decimals than the step; general claim refuted"
  },
  {
   "property": "C03",
   "status": "proved",
   "theorems": [
    "c03_interval_always_valid",
    "c03_rejected_exactly_when_unacceptable"
   ],
   "note": ""
  },
  {
   "property": "C04",
   "status": "proved",
   "theorems": [
    "c04_levels_are_last_solutions",
    "c04_implicit_euler",
    "c04_bdf2",
    "c04_pseudo_levels"
   ],
   "note": ""
  },
  {
   "property": "C05",
   "status": "proved",
   "theorems": [
    "c05_implicit_euler_exact_for_linear",
    "c05_bdf2_exact_for_quadratic",
    "c05_implicit_euler_first_order",
    "c05_bdf2_second_order",
    "c05_implicit_euler_level_and_step",
    "c05_bdf2_level_and_step",
    "c05_bdf2_startup_refuted",
    "c05_bdf2_changed_step_refuted"
   ],
   "note": "first BDF2 step inconsistent (refuted variant)"
  },
  {
   "property": "C06",
   "status": "proved",
   "theorems": [
    "c06_solves",
    "c06_restart_refuted",
    "c06_closed_form",
    "c06_monotone_bounded",
    "c06_constant_above_maximum",
    "c06_reaches_maximum",
    "c06_zero_settings_refuted"
   ],
   "note": "increment_at = 0 and increment_factor = 0 refuted; that every solve starts with the step that was set is refuted (the enlarged step stays)"
  },
  {
   "property": "C07",
   "status": "proved",
   "theorems": [
    "c07_solve_meets_specification"
   ],
   "note": ""
  },
  {
   "property": "C08",
   "status": "proved",
   "theorems": [
    "c08_complete_run",
    "c08_consumer_sees_labels",
    "c08_empty_timer_refuted",
    "c08_interrupted_run",
    "c08_pseudo_complete_run",
    "c08_pseudo_interrupted_run",
    "c08_stationary_refuted"
   ],
   "note": "empty timer and stationary runs raise (refuted variants)"
  },
  {
   "property": "C09",
   "status": "proved",
   "theorems": [
    "c09_vtk_schedule",
    "c09_due_points",
    "c09_rates",
    "c09_no_gap",
    "c09_interrupted"
   ],
   "note": ""
  },
  {
   "property": "C10",
   "status": "proved",
   "theorems": [
    "c10_state_files",
    "c10_level_files",
    "c10_interrupted",
    "c10_final_levels_refuted"
   ],
   "note": "final time levels may be missing, proved as refuted variant"
  },
  {
   "property": "C11",
   "status": "proved",
   "theorems": [
    "c11_sensor_schedule",
    "c11_no_csv_no_rows",
    "c11_interrupted"
   ],
   "note": ""
  },
  {
   "property": "C12",
   "status": "proved",
   "theorems": [
    "c12_due_states_load",
    "c12_rate_one_replays",
    "c12_rate_above_one_refuted"
   ],
   "note": "rate 1; higher rates refuted"
  },
  {
   "property": "C13",
   "status": "proved",
   "theorems": [
    "c13_levels_round_trip",
    "c13_levels_after_run"
   ],
   "note": ""
  },
  {
   "property": "C14",
   "status": "proved",
   "theorems": [
    "c14_pre_routines_run",
    "c14_single_streams_refuted",
    "c14_incomplete_setup_rejected"
   ],
   "note": "mesh and settings stream make every solve fail (refuted variant)"
  },
  {
   "property": "C15",
   "status": "proved",
   "theorems": [
    "c15_files_closed_and_rows_routed",
    "c15_same_name_refuted",
    "c15_failed_open_refuted"
   ],
   "note": "sensors of equal name across kinds and a failing open leak files (refuted variants)"
  },
  {
   "property": "C16",
   "status": "proved",
   "theorems": [
    "c16_header_aligned",
    "c16_L2_header_aligned",
    "c16_transient_rows_fit",
    "c16_stationary_rows_refuted",
    "c16_small_matrices_refuted"
   ],
   "note": "rows of stationary runs lack the time cell and small matrices are rejected (refuted variants)"
  },
  {
   "property": "C17",
   "status": "proved",
   "theorems": [
    "c17_relative_assignment",
    "c17_shared_folder_refuted",
    "c17_absolute_assignment",
    "c17_defaults"
   ],
   "note": "guard: no other folder stored at exactly the old location; without it the setter does not return (refuted variant)"
  },
  {
   "property": "C18",
   "status": "proved",
   "theorems": [
    "c18_position",
    "c18_assignment"
   ],
   "note": ""
  },
  {
   "property": "C19",
   "status": "proved",
   "theorems": [
    "c19_handlers",
    "c19_options",
    "c19_level",
    "c19_failed_open_refuted"
   ],
   "note": "file handler clause for histories in which all log files could be opened; otherwise refuted variant"
  },
  {
   "property": "C20",
   "status": "proved",
   "theorems": [
    "c20_rejected_unchanged",
    "c20_rejected_value",
    "c20_only_assigned_option",
    "c20_accepted_value",
    "c20_stored_values_accepted",
    "c20_defaults_accepted",
    "c20_settings_valid",
    "c20_dictionary_refuted"
   ],
   "note": "dictionaries are applied entry by entry (refuted variant)"
  },
  {
   "property": "C21",
   "status": "proved",
   "theorems": [
    "c21_identity_kept",
    "c21_last_value",
    "c21_statements_below",
    "c21_reset_creates"
   ],
   "note": ""
  },
  {
   "property": "C22",
   "status": "proved",
   "theorems": [
    "c22_history",
    "c22_default",
    "c22_objects",
    "c22_pass_ends",
    "c22_shared_instance_refuted"
   ],
   "note": "instances used with one root at a time; otherwise refuted variant"
  },
  {
   "property": "C23",
   "status": "proved",
   "theorems": [
    "c23_unknown_keyword",
    "c23_current_kept",
    "c23_fresh_instance",
    "c23_unique_keyword"
   ],
   "note": ""
  },
  {
   "property": "C24",
   "status": "proved",
   "theorems": [
    "c24_never_overwritten",
    "c24_only_what_was_asked",
    "c24_all_words_registered",
    "c24_unambiguous",
    "c24_duplicates_raise",
    "c24_inherited_name_refuted",
    "c24_inherited_aliases_refuted",
    "c24_case_refuted",
    "c24_failed_statement_refuted"
   ],
   "note": "inherited names and aliases, case of lookup, failed registration: refuted variants"
  },
  {
   "property": "C25",
   "status": "proved",
   "theorems": [
    "c25_tree_complete",
    "c25_round_trip",
    "c25_solver",
    "c25_log_refuted",
    "c25_stream_refuted"
   ],
   "note": "proved for the solver without its io option; false with it (refuted variants)"
  },
  {
   "property": "C26",
   "status": "proved",
   "theorems": [
    "c26_script",
    "c26_dotted_is_nested",
    "c26_order",
    "c26_unknown_ignored",
    "c26_keyword_last_raises",
    "c26_activation_refuted"
   ],
   "note": "activating a stream by update is ignored (refuted variant)"
  },
  {
   "property": "C27",
   "status": "proved",
   "theorems": [
    "c27_tables_proper",
    "c27_last_write",
    "c27_absent",
    "c27_others_unaffected",
    "c27_none_is_noop",
    "c27_canonical_keys",
    "c27_read_by_symbol_refuted",
    "c27_redeclared_symbol_refuted",
    "c27_flow_names",
    "c27_subclass_tables"
   ],
   "note": "reading or deleting by symbol and redeclared symbols refuted"
  },
  {
   "property": "C28",
   "status": "proved",
   "theorems": [
    "c28_fields",
    "c28_reported",
    "c28_defaults",
    "c28_deselect_refuted"
   ],
   "note": "deselecting defaults refuted"
  },
  {
   "property": "C29",
   "status": "proved",
   "theorems": [
    "c29_rejected",
    "c29_attached",
    "c29_pattern_names",
    "c29_mesh",
    "c29_history",
    "c29_new_object"
   ],
   "note": ""
  },
  {
   "property": "C30",
   "status": "proved",
   "theorems": [
    "c30_get_region",
    "c30_has_condition",
    "c30_domain_boundaries",
    "c30_layers",
    "c30_periodic_boundaries",
    "c30_pattern"
   ],
   "note": ""
  },
  {
   "property": "C31",
   "status": "proved",
   "theorems": [
    "c31_members",
    "c31_sound",
    "c31_complete",
    "c31_same_regions_refuted",
    "c31_lost_condition_refuted"
   ],
   "note": "guard: different region lists; otherwise one condition is lost (refuted variants)"
  },
  {
   "property": "C32",
   "status": "proved",
   "theorems": [
    "c32_periodic_check"
   ],
   "note": ""
  },
  {
   "property": "C33",
   "status": "proved",
   "theorems": [
    "c33_orders_admissible",
    "c33_assignment",
    "c33_statements",
    "c33_pairs",
    "c33_pairs_assignable"
   ],
   "note": ""
  },
  {
   "property": "C34",
   "status": "proved",
   "theorems": [
    "c34_facets",
    "c34_raises",
    "c34_elements"
   ],
   "note": ""
  },
  {
   "property": "C35",
   "status": "proved",
   "theorems": [
    "c35_function",
    "c35_rejected_unchanged",
    "c35_components",
    "c35_reset_refuted",
    "c35_dim_refuted",
    "c35_fresh_refuted",
    "c35_overall_refuted"
   ],
   "note": "resetting a coordinate, changing the dimension, fresh objects, overall deformation without layers: refuted variants"
  },
  {
   "property": "C36",
   "status": "proved",
   "theorems": [
    "c36_result",
    "c36_counts",
    "c36_triangles",
    "c36_conforming",
    "c36_boundary_parts"
   ],
   "note": ""
  },
  {
   "property": "C37",
   "status": "proved",
   "theorems": [
    "c37_clamped",
    "c37_normalised",
    "c37_monotone",
    "c37_coordinates"
   ],
   "note": ""
  },
  {
   "property": "C38",
   "status": "proved",
   "theorems": [
    "c38_bounds",
    "c38_monotone",
    "c38_constant",
    "c38_type_checked",
    "c38_penta_smooth"
   ],
   "note": ""
  },
  {
   "property": "C39",
   "status": "proved",
   "theorems": [
    "c39_linear",
    "c39_none",
    "c39_rejected",
    "c39_exponential",
    "c39_exponential_converges",
    "c39_tangential",
    "c39_tangential_converges",
    "c39_deformation",
    "c39_polar",
    "c39_polar_axis_refuted"
   ],
   "note": "polar components off the axes; on the axes division by zero (refuted variant)"
  },
  {
   "property": "C40",
   "status": "proved",
   "theorems": [
    "c40_abs",
    "c40_max",
    "c40_min",
    "c40_interval",
    "c40_other_raises",
    "c40_as_scalar",
    "c40_diagonal",
    "c40_trace",
    "c40_trace_diagonal",
    "c40_as_matrix",
    "c40_symmetric",
    "c40_symmetric_raises",
    "c40_skew",
    "c40_unit_vector",
    "c40_outer",
    "c40_trace_outer",
    "c40_fixpoint"
   ],
   "note": ""
  },
  {
   "property": "C41",
   "status": "proved",
   "theorems": [
    "c41_values",
    "c41_speed_of_sound",
    "c41_speed_of_sound_refuted",
    "c41_determined",
    "c41_specific_enthalpy",
    "c41_path_independent"
   ],
   "note": "speed of sound from the specific inner energy refuted"
  },
  {
   "property": "C42",
   "status": "proved",
   "theorems": [
    "c42_gradients",
    "c42_determined"
   ],
   "note": ""
  },
  {
   "property": "C43",
   "status": "proved",
   "theorems": [
    "c43_conservative_primitive",
    "c43_primitive_characteristic",
    "c43_conservative_characteristic",
    "c43_derivative",
    "c43_raises"
   ],
   "note": ""
  },
  {
   "property": "C44",
   "status": "proved",
   "theorems": [
    "c44_eigenvectors",
    "c44_primitive",
    "c44_conservative",
    "c44_transformed",
    "c44_raises"
   ],
   "note": ""
  },
  {
   "property": "C45",
   "status": "proved",
   "theorems": [
    "c45_flux",
    "c45_flux_determined",
    "c45_jacobian"
   ],
   "note": ""
  },
  {
   "property": "C46",
   "status": "proved",
   "theorems": [
    "c46_jacobians",
    "c46_identities",
    "c46_complete",
    "c46_complete_refuted",
    "c46_raises"
   ],
   "note": "completeness when no wave stands still; otherwise refuted variant"
  },
  {
   "property": "C47",
   "status": "proved",
   "theorems": [
    "c47_stabilisation",
    "c47_scalar",
    "c47_order",
    "c47_consistent",
    "c47_exists",
    "c47_conservative",
    "c47_mean_trace",
    "c47_opposite"
   ],
   "note": ""
  },
  {
   "property": "C48",
   "status": "proved",
   "theorems": [
    "c48_state",
    "c48_documented",
    "c48_documented_refuted",
    "c48_raises",
    "c48_similarity"
   ],
   "note": "documented temperature and pressure of the aeroacoustic scaling refuted"
  },
  {
   "property": "C49",
   "status": "proved",
   "theorems": [
    "c49_sutherland",
    "c49_farfield",
    "c49_increasing",
    "c49_others"
   ],
   "note": ""
  },
  {
   "property": "C50",
   "status": "proved",
   "theorems": [
    "c50_outflow",
    "c50_slip",
    "c50_inviscid_wall",
    "c50_isothermal_wall",
    "c50_adiabatic_wall",
    "c50_farfield",
    "c50_farfield_supersonic",
    "c50_farfield_uniform",
    "c50_farfield_refuted",
    "c50_farfield_dimension"
   ],
   "note": "default far field condition does not admit a uniform flow along the boundary (refuted variant)"
  },
  {
   "property": "C51",
   "status": "proved",
   "theorems": [
    "c51_strain",
    "c51_trace_refuted",
    "c51_stress",
    "c51_heat_flux",
    "c51_known",
    "c51_flux",
    "c51_uniform",
    "c51_raises",
    "c51_numerical_flux",
    "c51_gradient_method_refuted",
    "c51_strain_heat_method"
   ],
   "note": "trace in two dimensions and gradient method refuted"
  },
  {
   "property": "C52",
   "status": "proved",
   "theorems": [
    "c52_factors",
    "c52_dictionary_refuted",
    "c52_four_factors_refuted",
    "c52_few_factors",
    "c52_other",
    "c52_grcbc",
    "c52_nscbc",
    "c52_missing"
   ],
   "note": "dictionary keys and four factors in two dimensions refuted"
  },
  {
   "property": "C53",
   "status": "proved",
   "theorems": [
    "c53_isentrope",
    "c53_isentrope_temperature",
    "c53_reference",
    "c53_determined"
   ],
   "note": ""
  },
  {
   "property": "C54",
   "status": "proved",
   "theorems": [
    "c54_dimensionful"
   ],
   "note": ""
  },
  {
   "property": "C55",
   "status": "proved",
   "theorems": [
    "c55_boundary_terms",
    "c55_masked_covered",
    "c55_boundary_errors",
    "c55_options_supported",
    "c55_domain_options_refuted",
    "c55_psponge_refuted",
    "c55_domain_terms",
    "c55_periodic_mixed_refuted"
   ],
   "note": "domain conditions that make the set-up fail, polynomial sponge layers, mixed periodic boundaries: refuted variants"
  },
  {
   "property": "C56",
   "status": "proved",
   "theorems": [
    "c56_orientation",
    "c56_thin_ring_refuted",
    "c56_closing_segment_refuted"
   ],
   "note": "thin rings and the closing segment refuted"
  },
  {
   "property": "C57",
   "status": "proved",
   "theorems": [
    "c57_fields",
    "c57_total",
    "c57_physical",
    "c57_unique",
    "c57_vector",
    "c57_gradients"
   ],
   "note": ""
  },
  {
   "property": "C58",
   "status": "proved",
   "theorems": [
    "c58_waves",
    "c58_relaxes",
    "c58_between",
    "c58_uniform",
    "c58_targets",
    "c58_targets_missing",
    "c58_mass_inflow_refuted",
    "c58_raises"
   ],
   "note": "mass inflow from density, velocity and pressure refuted"
  },
  {
   "property": "C59",
   "status": "proved",
   "theorems": [
    "c59_full",
    "c59_condensed",
    "c59_same_correction",
    "c59_linear",
    "c59_definite",
    "c59_criterion_refuted",
    "c59_error_refuted"
   ],
   "note": "convergence criterion in general and equality of the reported error refuted"
  },
  {
   "property": "C60",
   "status": "proved",
   "theorems": [
    "c60_computed",
    "c60_elements",
    "c60_facets",
    "c60_domain",
    "c60_euler",
    "c60_bdf2",
    "c60_periodic"
   ],
   "note": ""
  },
  {
   "property": "C61",
   "status": "proved",
   "theorems": [
    "c61_slip",
    "c61_isothermal",
    "c61_slip_waves",
    "c61_upwind_refuted",
    "c61_inviscid_box",
    "c61_isothermal_box"
   ],
   "note": "upwind solver refuted"
  },
  {
   "property": "C62",
   "status": "proved",
   "theorems": [
    "c62_convection",
    "c62_diffusion",
    "c62_stays"
   ],
   "note": ""
  },
  {
   "property": "C63",
   "status": "proved",
   "theorems": [
    "c63_identity",
    "c63_unique",
    "c63_strain",
    "c63_mean",
    "c63_uniform",
    "c63_gradient",
    "c63_raises"
   ],
   "note": ""
  },
  {
   "property": "C64",
   "status": "proved",
   "theorems": [
    "c64_derivative",
    "c64_constant",
    "c64_viscosity_refuted",
    "c64_terms",
    "c64_upright",
    "c64_terms_refuted",
    "c64_uniform",
    "c64_methods"
   ],
   "note": "Jacobians with Sutherland's law and the characteristic viscous terms refuted"
  },
  {
   "property": "C65",
   "status": "proved",
   "theorems": [
    "c65_success",
    "c65_complete",
    "c65_exactly",
    "c65_built",
    "c65_limits",
    "c65_dictionary_refuted",
    "c65_layer_refuted"
   ],
   "note": "plain dictionaries as initial state and layers on the domains of the initial condition refuted"
  },
  {
   "property": "C66",
   "status": "proved",
   "theorems": [
    "c66_variables",
    "c66_amplitudes",
    "c66_split",
    "c66_relations",
    "c66_raises"
   ],
   "note": ""
  },
  {
   "property": "C67",
   "status": "proved",
   "theorems": [
    "c67_stress",
    "c67_pressure_coefficient",
    "c67_force",
    "c67_directions",
    "c67_closed",
    "c67_uniform",
    "c67_sign_refuted",
    "c67_local",
    "c67_reynolds_refuted",
    "c67_raises"
   ],
   "note": "sign of drag and local Reynolds number of the far field refuted"
  },
  {
   "property": "C68",
   "status": "proved",
   "theorems": [
    "c68_residual",
    "c68_raises",
    "c68_layer",
    "c68_step",
    "c68_positive",
    "c68_converges",
    "c68_run",
    "c68_bdf2_step",
    "c68_bdf2_positive",
    "c68_bdf2_positive_refuted",
    "c68_bdf2_converges",
    "c68_bdf2_run",
    "c68_bdf2_overshoot_refuted"
   ],
   "note": "positivity of BDF2 steps from two physical levels and of BDF2 runs with large dt w is refuted; holds if the weighted difference of the levels is physical and for runs with dt w <= 1/2"
  },
  {
   "property": "C69",
   "status": "proved",
   "theorems": [
    "c69_sequence",
    "c69_pattern",
    "c69_pattern_sums",
    "c69_whole_domain",
    "c69_whole_boundary_refuted",
    "c69_warnings",
    "c69_opens",
    "c69_no_region_refuted",
    "c69_single_refuted",
    "c69_reopen",
    "c69_l2",
    "c69_l2_norm",
    "c69_points"
   ],
   "note": "boundary sensors without regions, sensors none of whose names exists and sensors of a single component refuted"
  },
  {
   "property": "C70",
   "status": "proved",
   "theorems": [
    "c70_function",
    "c70_exact",
    "c70_unique",
    "c70_order",
    "c70_bounds",
    "c70_raises",
    "c70_bounds_refuted"
   ],
   "note": "bounds for orders above zero refuted"
  },
  {
   "property": "C71",
   "status": "proved",
   "theorems": [
    "c71_vector",
    "c71_missing",
    "c71_content",
    "c71_exact",
    "c71_uniform",
    "c71_interface",
    "c71_physical",
    "c71_physical_refuted",
    "c71_missing_refuted"
   ],
   "note": "positivity for orders above zero and domains without initial condition refuted"
  },
  {
   "property": "C72",
   "status": "proved",
   "theorems": [
    "c72_euler_stable",
    "c72_bdf2_stable",
    "c72_euler_accuracy",
    "c72_bdf2_accuracy",
    "c72_bdf2_second_order",
    "c72_bdf2_startup_refuted",
    "c72_bdf2_second_order_refuted"
   ],
   "note": "for dissipative spatial forms (a hypothesis on the problem); second order of BDF2 with the start used by the code refuted in general, proved for solutions starting at rest"
  },
  {
   "property": "C73",
   "status": "proved",
   "theorems": [
    "c73_apart",
    "c73_saved",
    "c73_frame",
    "c73_log_appends",
    "c73_mesh_round_trip",
    "c73_settings_round_trip",
    "c73_state_round_trip",
    "c73_kinds",
    "c73_no_clash",
    "c73_clash_refuted",
    "c73_succeeds",
    "c73_subfolder_refuted",
    "c73_loading_refuted"
   ],
   "note": "sharing of one file by mesh and settings, names with folders and side effects of loading refuted"
  },
  {
   "property": "C74",
   "status": "proved",
   "theorems": [
    "c74_every_point_once",
    "c74_digits",
    "c74_labels",
    "c74_never_backwards",
    "c74_strides_agree",
    "c74_digits_follow_step",
    "c74_interval",
    "c74_interval_nan_refuted",
    "c74_digits_refuted",
    "c74_labels_refuted"
   ],
   "note": "IEEE doubles of Flocq; decimals of steps above one half, their labels, and NaN in the interval refuted"
  },
  {
   "property": "C75",
   "status": "proved",
   "theorems": [
    "c75_refused",
    "c75_domain",
    "c75_materials",
    "c75_layers",
    "c75_sizes",
    "c75_sizes_refuted",
    "c75_no_levels",
    "c75_unnamed_refuted",
    "c75_order_refuted",
    "c75_copied_regions"
   ],
   "note": "shapes of the geometry kernel are sets of points with names; order of element sizes, names without a sponge and unchecked order of radii refuted"
  },
  {
   "property": "C76",
   "status": "proved",
   "theorems": [
    "c76_loaded",
    "c76_labels",
    "c76_restart",
    "c76_replay",
    "c76_initial_refuted",
    "c76_schedule_refuted",
    "c76_complete",
    "c76_euler_state",
    "c76_bdf2_state_refuted",
    "c76_state_only_refuted",
    "c76_times_refuted",
    "c76_rerun_name_refuted"
   ],
   "note": "the nonlinear solve is an oracle on everything in memory and the clock; the state at a restart is compared with an uninterrupted run for solves that do not depend on the clock; initial file, schedule, clock and state-only restarts refuted"
  },
  {
   "property": "C77",
   "status": "proved",
   "theorems": [
    "c77_rates",
    "c77_energy",
    "c77_euler",
    "c77_bdf2"
   ],
   "note": "the disturbances are derivatives of families of discrete solutions at the uniform flow; that such families exist is a hypothesis (the example gives one); the rules integrate the product rule exactly, facet functions on different facets are independent and facets of the domain boundary are straight"
  },
  {
   "property": "C78",
   "status": "proved",
   "theorems": [
    "c78_round_trip",
    "c78_distinct",
    "c78_windows_refuted",
    "c78_history",
    "c78_header_only_w",
    "c78_modes",
    "c78_killed",
    "c78_killed_append",
    "c78_torn_refuted",
    "c78_glued_refuted",
    "c78_frame",
    "c78_frame_L2",
    "c78_resumed",
    "c78_append_new_refuted",
    "c78_short_rows",
    "c78_long_row_refuted",
    "c78_glued_lost_refuted",
    "c78_overwrite"
   ],
   "note": "the writer of the module csv, text files and the modes of open are modelled as documented by Python; of pandas only the division of rows into header, index and cells; the reader is a separate specification; conversion of numbers to text is a parameter"
  },
  {
   "property": "C79",
   "status": "proved",
   "theorems": [
    "c79_quadratic",
    "c79_damped",
    "c79_reported",
    "c79_accurate",
    "c79_unique",
    "c79_far_refuted"
   ],
   "note": "builds on the models of C07 and C59; that AssembleLinearization is the derivative of Apply is a hypothesis (NGSolve); exact arithmetic"
  },
  {
   "property": "C80",
   "status": "proved",
   "theorems": [
    "c80_scalar",
    "c80_upwind",
    "c80_roe",
    "c80_hllem",
    "c80_supersonic",
    "c80_contact_refuted",
    "c80_unique",
    "c80_free_density_refuted",
    "c80_exists",
    "c80_facet_equation"
   ],
   "note": "builds on the models of C47 and C58; existence is not shown for Upwind; test functions of the facets may take any values at the quadrature points"
  },
  {
   "property": "C81",
   "status": "proved",
   "theorems": [
    "c81_flux",
    "c81_diffusion",
    "c81_walls",
    "c81_farfield",
    "c81_cbc",
    "c81_form",
    "c81_solution",
    "c81_mixed",
    "c81_gradients",
    "c81_viscous_terms",
    "c81_viscous_axes",
    "c81_viscous_refuted",
    "c81_viscous_mirror_refuted"
   ],
   "note": "builds on the models of C47, C50, C51, C58, C60 and C63; that a turned mesh has the same quadrature points and the turned normals and shape functions is part of the trusted base (vector valued spaces made of components with equal shape functions)"
  },
  {
   "property": "C82",
   "status": "proved",
   "theorems": [
    "c82_balanced",
    "c82_upwind_refuted",
    "c82_half",
    "c82_run",
    "c82_condition",
    "c82_viscous",
    "c82_viscous_refuted"
   ],
   "note": "builds on the models of C47, C50, C60 and C81; the doubled mesh is the half with even and its image with odd point numbers, and its test functions are pairs of test functions of the half with one value on the plane; the viscous case is refuted at facets (c82_viscous_refuted), with c82_viscous the exact condition"
  },
  {
   "property": "C83",
   "status": "proved",
   "theorems": [
    "c83_reference",
    "c83_flux",
    "c83_diffusion",
    "c83_walls",
    "c83_farfield",
    "c83_cbc",
    "c83_form",
    "c83_solution",
    "c83_mixed",
    "c83_gradients",
    "c83_coefficients",
    "c83_local_reynolds_refuted",
    "c83_back",
    "c83_viscous_terms"
   ],
   "note": "builds on the models of C45-C51, C58, C60, C63 and C67; test spaces are closed under other weights of the components and of the facets of the domain boundary, as spaces without coupling between components and facets are; the adiabatic wall raises (C50) and is left out; c83_back gives the converse"
  },
  {
   "property": "C84",
   "status": "proved",
   "theorems": [
    "c84_iterates",
    "c84_steady_kept",
    "c84_unchanged",
    "c84_converges",
    "c84_reported",
    "c84_step_refuted",
    "c84_report_refuted",
    "c84_bdf2_refuted"
   ],
   "note": "levels of all variables with a temporal integrator in one vector (rows of the mass matrix are zero for other unknowns); assembly and factorisation as in C59; the convergence theorems suppose a steady state with decaying perturbations (stable_state)"
  },
  {
   "property": "C85",
   "status": "proved",
   "theorems": [
    "c85_density",
    "c85_physical",
    "c85_run",
    "c85_bounded",
    "c85_bdf2_refuted"
   ],
   "note": "quadrature weights positive; the facet states are supposed physical (for states that are not the sound speed is no real number or the facet has no gas); the discrete problem is supposed to be solved exactly"
  },
  {
   "property": "C86",
   "status": "proved",
   "theorems": [
    "c86_flux",
    "c86_form",
    "c86_solves",
    "c86_run",
    "c86_unique",
    "c86_wall",
    "c86_still",
    "c86_smears"
   ],
   "note": "builds on the models of C47, C50, C58 and C60; that the computed step is the transported one needs that it has no other solution among the flows in question (c86_unique); quadrature exact for gradients of test functions (gauss)"
  },
  {
   "property": "C87",
   "status": "proved",
   "theorems": [
    "c87_boundary",
    "c87_sponges",
    "c87_order",
    "c87_together",
    "c87_same_regions_refuted",
    "c87_together_refuted"
   ],
   "note": "builds on the models of C29-C31, C55 and C60; conditions created by the same keyword are supposed to behave alike; patterns are regular expressions for NGSolve, names are supposed to have no special characters"
  },
  {
   "property": "C88",
   "status": "proved",
   "theorems": [
    "c88_flux",
    "c88_wall",
    "c88_outflow",
    "c88_ends",
    "c88_form",
    "c88_solves",
    "c88_terms",
    "c88_sponge"
   ],
   "note": "uses the model of the weak form of C55; the other fluxes need characteristic matrices, which do not exist in three dimensions; farfield and characteristic conditions fail there for the same reason"
  },
  {
   "property": "C89",
   "status": "proved",
   "theorems": [
    "c89_form",
    "c89_spaces",
    "c89_solves",
    "c89_mixed",
    "c89_gradient"
   ],
   "note": "uses the model of the weak form of C55; that NGSolve identifies the facet unknowns of periodic boundaries is an assumption on the spaces, stated as gluing of facets"
  },
  {
   "property": "C90",
   "status": "proved",
   "theorems": [
    "c90_snapshot",
    "c90_closed"
   ],
   "note": ""
  },
  {
   "property": "C91",
   "status": "proved",
   "theorems": [
    "c91_redraw",
    "c91_earlier_refuted",
    "c91_run",
    "c91_pseudo_run"
   ],
   "note": "that scenes of earlier drawings are refreshed as well is refuted"
  },
  {
   "property": "C92",
   "status": "proved",
   "theorems": [
    "c92_file",
    "c92_lines",
    "c92_rejected"
   ],
   "note": ""
  },
  {
   "property": "C93",
   "status": "proved",
   "theorems": [
    "c93_opened",
    "c93_fails",
    "c93_restore_refuted"
   ],
   "note": "that a stored configuration brings its sensors back is refuted"
  },
  {
   "property": "C94",
   "status": "proved",
   "theorems": [
    "c94_integers",
    "c94_rates",
    "c94_numbers",
    "c94_switches",
    "c94_words_refuted",
    "c94_factor_refuted",
    "c94_names",
    "c94_parameters"
   ],
   "note": "texts for numbers are outside the model; that words for off switch off and that fractional increment factors act is refuted"
  }
 ]
}