{
 "claims": [
  {
   "property": "C01",
   "status": "proved",
   "theorems": [
    "C01_substitution_stays_in_bounds",
    "C01_substitution_history"
   ],
   "note": ""
  },
  {
   "property": "C02",
   "status": "proved",
   "theorems": [
    "C02_unlock",
    "C02_locked_variable_never_moves",
    "C02_locked_variable_safe_through_problem"
   ],
   "note": "non-index variables through every operation incl. direct substitution; index variables through problem-level calls (the direct-substitution case is C03)"
  },
  {
   "property": "C03",
   "status": "partial",
   "theorems": [
    "C03_index_position",
    "C03_locked_index_variable_refuted"
   ],
   "note": "REFUTED: IndexVariable.substitute stores the value even when locked (C03_locked_index_variable_refuted); the restriction that does hold is C02_locked_variable_safe_through_problem"
  },
  {
   "property": "C04",
   "status": "proved",
   "theorems": [
    "C04_constraint_sees_full_vector",
    "C04_full_vector_unique",
    "C04_unvalued_lock_refuted"
   ],
   "note": "locked variables must carry a value; without one the alignment is lost (C04_unvalued_lock_refuted)"
  },
  {
   "property": "C05",
   "status": "partial",
   "theorems": [
    "C05_objective_sees_full_vector",
    "C05_objective_misassigns_refuted",
    "C05_objective_assigns_partial"
   ],
   "note": "REFUTED: the objective substitutes the completed vector into the free variables only (C05_objective_misassigns_refuted); holds when every locked variable comes after the free ones (C05_objective_assigns_partial)"
  },
  {
   "property": "C06",
   "status": "proved",
   "theorems": [
    "C06_feasible_iff_all_hold",
    "C06_feasible_order_independent",
    "C06_feasible_tolerance_monotone"
   ],
   "note": ""
  },
  {
   "property": "C07",
   "status": "proved",
   "theorems": [
    "C07_linear_constraint_affine",
    "C07_out_of_bounds_refuted",
    "C07_index_variable_always_raises"
   ],
   "note": "for points within the bounds; outside them the clamped point is evaluated (C07_out_of_bounds_refuted), and any index variable makes it raise"
  },
  {
   "property": "C08",
   "status": "proved",
   "theorems": [
    "C08_exterior_penalty_exact_on_feasible_set",
    "C08_exterior_penalty_monotone_in_weight",
    "C08_odd_exponent_refuted"
   ],
   "note": "for even exponents (default p=2); odd exponents reward violated equalities (C08_odd_exponent_refuted)"
  },
  {
   "property": "C09",
   "status": "partial",
   "theorems": [
    "C09_gt_value",
    "C09_exact_penalty_partial",
    "C09_exact_penalty_refuted"
   ],
   "note": "REFUTED: a violated '>' constraint lowers the exact penalty (C09_exact_penalty_refuted); proved for problems without '>' constraints"
  },
  {
   "property": "C10",
   "status": "partial",
   "theorems": [
    "C10_augmented_terms",
    "C10_inequality_multipliers_nonnegative",
    "C10_update_is_slope_of_augmented_term",
    "C10_lower_bound_multiplier",
    "C10_upper_bound_multiplier_refuted",
    "C10_upper_bound_multiplier_partial"
   ],
   "note": "REFUTED for upper-bound multipliers, which are updated from the lower-bound multiplier; constraints and lower bounds proved"
  },
  {
   "property": "C11",
   "status": "proved",
   "theorems": [
    "C11_smaller_is_adjacent",
    "C11_larger_is_adjacent",
    "C11_smaller_raises_iff_none_below",
    "C11_larger_raises_iff_none_above"
   ],
   "note": ""
  },
  {
   "property": "C12",
   "status": "partial",
   "theorems": [
    "C12_discrete_violation_is_distance",
    "C12_allowed_discrete_has_no_violation",
    "C12_discrete_converse_refuted",
    "C12_integer_violation_is_distance_partial",
    "C12_integer_allowed_iff_no_violation",
    "C12_integer_large_values_refuted"
   ],
   "note": "REFUTED for integers above 1e5 (default relative tolerance of math.isclose); proved for |bounds| <= 1e5 and for discrete variables; the two discrete tolerances differ (C12_discrete_converse_refuted)"
  },
  {
   "property": "C13",
   "status": "proved",
   "theorems": [
    "C13_locked_variable_always_raises",
    "C13_kept_variables",
    "C13_binary_reformulation",
    "C13_selected_profile_unique"
   ],
   "note": "for problems without locked variables; with one every generated constraint raises (C13_locked_variable_always_raises). The default call with continuous property variables fails when the variables are created (C375_continuous_change_refuted); C13 is about the problem made by the discrete ones."
  },
  {
   "property": "C14",
   "status": "proved",
   "theorems": [
    "C14_potentially_active_exactly",
    "C14_violated_are_potentially_active"
   ],
   "note": ""
  },
  {
   "property": "C15",
   "status": "proved",
   "theorems": [
    "C15_conlin_matches_value_and_gradient",
    "C15_conlin_conservative"
   ],
   "note": ""
  },
  {
   "property": "C16",
   "status": "proved",
   "theorems": [
    "C16_conlin_convex"
   ],
   "note": ""
  },
  {
   "property": "C17",
   "status": "proved",
   "theorems": [
    "C17_mma_matches_value",
    "C17_mma_gradient_correct",
    "C17_mma_gradient_at_expansion_point",
    "C17_mma_convex"
   ],
   "note": "value and gradient at the expansion point, gradient everywhere, convexity"
  },
  {
   "property": "C18",
   "status": "proved",
   "theorems": [
    "C18_asymptotes_enclose_iterate"
   ],
   "note": ""
  },
  {
   "property": "C19",
   "status": "partial",
   "theorems": [
    "C19_move_limits",
    "C19_negative_asymptote_refuted",
    "C19_subproblem_bounds_partial",
    "C19_upper_bound",
    "C19_problem_mma_bounds"
   ],
   "note": "REFUTED for MMAProblem with a negative lower asymptote (reachable run exhibited); proved for iterates with |L| < x, and without restriction for the upper bound and for OptimizationProblem.mma"
  },
  {
   "property": "C20",
   "status": "partial",
   "theorems": [
    "C20_branching_variable",
    "C20_allowed_integer",
    "C20_all_allowed",
    "C20_branching_covers_and_separates_partial",
    "C20_integer_branching_raises"
   ],
   "note": "proved for list (catalogue) variables: children partition the admissible points of the node and exclude the relaxed value; REFUTED as executable for integer variables, where branching raises"
  },
  {
   "property": "C21",
   "status": "proved",
   "theorems": [
    "C21_global_optimum",
    "C21_continuous_variable_raises",
    "C21_depth_first_selection"
   ],
   "note": "for arbitrary oracles meeting the exactness contracts; finding: a continuous variable makes every unfathomed node raise"
  },
  {
   "property": "C22",
   "status": "proved",
   "theorems": [
    "C22_incumbent_never_worsens",
    "C22_incumbent_has_its_value"
   ],
   "note": ""
  },
  {
   "property": "C23",
   "status": "partial",
   "theorems": [
    "C23_accepts_infeasible_refuted",
    "C23_incumbent_feasible_partial"
   ],
   "note": "REFUTED: a heuristic point violating a '>' constraint is accepted; proved for '<' constraints"
  },
  {
   "property": "C24",
   "status": "partial",
   "theorems": [
    "C24_tightening_gt_refuted",
    "C24_tightening_tiny_refuted",
    "C24_tightening_partial"
   ],
   "note": "REFUTED for '>' rows and for coefficients below 1e-9; proved for '<' rows with coefficients zero or above 1e-9"
  },
  {
   "property": "C25",
   "status": "proved",
   "theorems": [
    "C25_stopping",
    "C25_returns_best_feasible_iterate",
    "C25_run_is_total",
    "C25_better_start_lost_refuted",
    "C25_reused_solver_refuted"
   ],
   "note": "findings: the starting point is not an iterate and is lost even if best; a reused solver object returns the previous run's best"
  },
  {
   "property": "C26",
   "status": "proved",
   "theorems": [
    "C26_step_stays_in_bounds",
    "C26_inside_step_unchanged",
    "C26_step_nearest"
   ],
   "note": "for step vectors of matching length"
  },
  {
   "property": "C27",
   "status": "proved",
   "theorems": [
    "C27_least_violated",
    "C27_global_best",
    "C27_global_best_never_worsens",
    "C27_personal_best",
    "C27_least_violated_refuted",
    "C27_gt_constraints_refuted"
   ],
   "note": "feasible means sum of violations <= 1e-8 as the swarm counts it; findings: that sum ignores the direction of '>' constraints, and with no feasible particle the point kept is the best of the first generation only"
  },
  {
   "property": "C28",
   "status": "partial",
   "theorems": [
    "C28_free_move",
    "C28_continuous_move_in_bounds",
    "C28_discrete_move_partial",
    "C28_first_catalogue_refuted",
    "C28_velocity_limits",
    "C28_craziness_limits"
   ],
   "note": "REFUTED for variables with different catalogues (every coordinate is rounded to the first variable's list); proved for continuous moves, velocities, and a catalogue shared by all variables"
  },
  {
   "property": "C29",
   "status": "proved",
   "theorems": [
    "C29_grid_is_the_product",
    "C29_run_tries_each_combination_once",
    "C29_problem_parameters_unused_refuted"
   ],
   "note": "finding: the grid of problem parameters has no effect on the calls"
  },
  {
   "property": "C30",
   "status": "partial",
   "theorems": [
    "C30_move_box_partial",
    "C30_relative_limits_negative_refuted",
    "C30_limits_shrink"
   ],
   "note": "REFUTED for relative move limits at negative values; proved for range limits and for relative limits at non-negative values"
  },
  {
   "property": "C31",
   "status": "partial",
   "theorems": [
    "C31_window_contains_nearest_partial",
    "C31_window_size",
    "C31_empty_window_refuted",
    "C31_wrong_centre_refuted"
   ],
   "note": "REFUTED for upper limit 0 (empty window) and about the centre (last iterate instead of the optimum); proved for upper limit >= 1"
  },
  {
   "property": "C32",
   "status": "proved",
   "theorems": [
    "C32_integer_values",
    "C32_integer_entries",
    "C32_all_combinations_of_nearest_values",
    "C32_contains_nearest_point",
    "C32_continuous_variables_refuted"
   ],
   "note": "finding: continuous variables contribute no coordinate, so the points are shorter than the design vector"
  },
  {
   "property": "C33",
   "status": "partial",
   "theorems": [
    "C33_value_reproduced",
    "C33_affine_reproduced_partial",
    "C33_locked_variable_refuted",
    "C33_slope",
    "C33_step_size",
    "C33_step_inside_bounds"
   ],
   "note": "value reproduced always; affine reproduction REFUTED for linear constraints behind a locked variable, proved otherwise"
  },
  {
   "property": "C34",
   "status": "proved",
   "theorems": [
    "C34_numbering_bijection",
    "C34_renumbering_stable"
   ],
   "note": ""
  },
  {
   "property": "C35",
   "status": "proved",
   "theorems": [
    "C35_global_stiffness_symmetric"
   ],
   "note": ""
  },
  {
   "property": "C36",
   "status": "proved",
   "theorems": [
    "C36_assembly_order",
    "C36_load_order"
   ],
   "note": ""
  },
  {
   "property": "C37",
   "status": "proved",
   "theorems": [
    "C37_energy_sum",
    "C37_semidefinite"
   ],
   "note": ""
  },
  {
   "property": "C38",
   "status": "partial",
   "theorems": [
    "C38_removed",
    "C38_statics_partial",
    "C38_second_analysis_refuted",
    "C38_default_method_raises"
   ],
   "note": "proved for the first analysis of a model; REFUTED for later analyses with other supports (old displacements survive); the default method 'ZERO' raises"
  },
  {
   "property": "C39",
   "status": "proved",
   "theorems": [
    "C39_local_symmetric",
    "C39_local_semidefinite",
    "C39_local_rigid",
    "C39_global_symmetric",
    "C39_global_semidefinite",
    "C39_global_rigid"
   ],
   "note": "in the global frame the node distance is a whole number of thousandths; see C41 for the other lengths"
  },
  {
   "property": "C40",
   "status": "proved",
   "theorems": [
    "C40_local_only_rigid",
    "C40_global_only_rigid"
   ],
   "note": ""
  },
  {
   "property": "C41",
   "status": "partial",
   "theorems": [
    "C41_orthogonal_partial",
    "C41_length_preserved_partial",
    "C41_energy_frame",
    "C41_scale",
    "C41_rounded_length_refuted"
   ],
   "note": "proved when the length is a whole number of thousandths; REFUTED otherwise, with the exact scale factor and its distance from one"
  },
  {
   "property": "C42",
   "status": "partial",
   "theorems": [
    "C42_3d_entries",
    "C42_integral_unique",
    "C42_local_load_partial",
    "C42_global_load_partial",
    "C42_axial_load_refuted",
    "C42_factor_squared_refuted",
    "C42_extent_ignored_refuted",
    "C42_3d_local_y",
    "C42_3d_local_z_refuted",
    "C42_3d_factor_refuted"
   ],
   "note": "proved for local transverse loads and for global loads with factor 1; REFUTED for local axial loads (dropped), for global loads with another factor (factor squared), for partial extent (ignored), and on 3D beams for local z and for the factor"
  },
  {
   "property": "C43",
   "status": "partial",
   "theorems": [
    "C43_end_values",
    "C43_end_slopes_partial",
    "C43_translation",
    "C43_unit_length_partial",
    "C43_other_lengths_refuted"
   ],
   "note": "end values, translation and first three slopes for every length; full interpolation for length 1; REFUTED for every other length"
  },
  {
   "property": "C44",
   "status": "proved",
   "theorems": [
    "C44_symmetric",
    "C44_energy",
    "C44_semidefinite",
    "C44_end_forces"
   ],
   "note": ""
  },
  {
   "property": "C45",
   "status": "proved",
   "theorems": [
    "C45_limits",
    "C45_stiffness_kept",
    "C45_symmetric",
    "C45_semidefinite",
    "C45_rigid_motion",
    "C45_rigid_joints",
    "C45_approaches_rigid",
    "C45_joint_limits_moment"
   ],
   "note": ""
  },
  {
   "property": "C46",
   "status": "partial",
   "theorems": [
    "C46_releases_seen_partial",
    "C46_releases_seen_after_drop_partial",
    "C46_release_after_analysis_refuted",
    "C46_condensation"
   ],
   "note": "proved when releases are not changed after the first evaluation; condensation proved right; REFUTED for changes after an evaluation"
  },
  {
   "property": "C47",
   "status": "partial",
   "theorems": [
    "C47_union",
    "C47_point_load_scales_partial",
    "C47_point_load_value",
    "C47_other_cases",
    "C47_local_line_load",
    "C47_global_line_load_refuted"
   ],
   "note": "proved for point loads, unions and local line loads; REFUTED for global line loads (factor squared)"
  },
  {
   "property": "C48",
   "status": "proved",
   "theorems": [
    "C48_unique",
    "C48_internal_bending",
    "C48_internal_compression",
    "C48_outstand_compression",
    "C48_circular",
    "C48_internal_combined",
    "C48_internal_tension",
    "C48_monotone"
   ],
   "note": ""
  },
  {
   "property": "C49",
   "status": "partial",
   "theorems": [
    "C49_from_S235_partial",
    "C49_yield_strength_argument_partial",
    "C49_bending_and_tubes_all_grades_partial",
    "C49_below_S235_refuted"
   ],
   "note": "proved for fy >= 235 and, for bending and tubes, for every fy; REFUTED below 235: epsilon > 1 is taken for a yield strength, so class 4 parts are put in class 1"
  },
  {
   "property": "C50",
   "status": "proved",
   "theorems": [
    "C50_curve_table",
    "C50_curves",
    "C50_proper",
    "C50_strength"
   ],
   "note": ""
  },
  {
   "property": "C51",
   "status": "proved",
   "theorems": [
    "C51_monotone",
    "C51_strict"
   ],
   "note": ""
  },
  {
   "property": "C52",
   "status": "proved",
   "theorems": [
    "C52_range"
   ],
   "note": ""
  },
  {
   "property": "C53",
   "status": "proved",
   "theorems": [
    "C53_sign",
    "C53_orientation",
    "C53_orientation_refuted"
   ],
   "note": "finding: without the threshold condition the swap claim is false (C53_orientation_refuted)"
  },
  {
   "property": "C54",
   "status": "partial",
   "theorems": [
    "C54_utility",
    "C54_kyy",
    "C54_kyy_slenderness",
    "C54_kzz_partial",
    "C54_utility_major_partial",
    "C54_kzy_stocky_torsion_partial",
    "C54_kzy_torsion_decreases_refuted",
    "C54_kzz_refuted"
   ],
   "note": "proved for the utilisation formula, kyy and kzz of hollow sections; REFUTED for kzz of open sections with slenderness in [0.2,0.3); kzy of torsionally weak members decreases by design"
  },
  {
   "property": "C55",
   "status": "proved",
   "theorems": [
    "C55_outstand_value",
    "C55_internal_reduction",
    "C55_internal_monotone",
    "C55_outstand_reduction",
    "C55_outstand_monotone",
    "C55_internal_width",
    "C55_outstand_width"
   ],
   "note": ""
  },
  {
   "property": "C56",
   "status": "proved",
   "theorems": [
    "C56_table",
    "C56_defined",
    "C56_range",
    "C56_no_jumps"
   ],
   "note": ""
  },
  {
   "property": "C57",
   "status": "proved",
   "theorems": [
    "C57_eta_values",
    "C57_range",
    "C57_monotone",
    "C57_eta",
    "C57_end_post",
    "C57_rigid_step_refuted"
   ],
   "note": "finding: strict monotonicity is false with a rigid end post (C57_rigid_step_refuted)"
  },
  {
   "property": "C58",
   "status": "proved",
   "theorems": [
    "C58_printed_tables",
    "C58_stainless_ky",
    "C58_unknown_steel",
    "C58_table",
    "C58_interpolation",
    "C58_range",
    "C58_monotone",
    "C58_stainless_ky_refuted"
   ],
   "note": "finding: the stainless ky table rises (C58_stainless_ky_refuted) and has 0.040 where EN 1993-1-2 prints 0.40 (C58_stainless_ky)"
  },
  {
   "property": "C59",
   "status": "partial",
   "theorems": [
    "C59_domain_partial",
    "C59_gap_100_200_refuted",
    "C59_bolts_gap_refuted",
    "C59_outside"
   ],
   "note": "the exact domain is proved; REFUTED between 100 and 200 degrees and for bolts above 1000"
  },
  {
   "property": "C60",
   "status": "proved",
   "theorems": [
    "C60_law_values",
    "C60_law_monotone",
    "C60_law_continuous",
    "C60_parameters",
    "C60_stress",
    "C60_1200_raises"
   ],
   "note": "finding: at 1200 degrees the function raises"
  },
  {
   "property": "C61",
   "status": "proved",
   "theorems": [
    "C61_standard",
    "C61_hydrocarbon"
   ],
   "note": ""
  },
  {
   "property": "C62",
   "status": "proved",
   "theorems": [
    "C62_within_precision",
    "C62_branches",
    "C62_values",
    "C62_strict_refuted"
   ],
   "note": "finding: the strict claim is false at 750 degrees"
  },
  {
   "property": "C63",
   "status": "proved",
   "theorems": [
    "C63_rhs_history",
    "C63_valid_dimensions_never_raise",
    "C63_constructor_succeeds",
    "C63_raised_update_leaves_stale"
   ],
   "note": "An assignment that raises (e.g. height 0) keeps the values stored so far, so area and moduli disagree until the next completed assignment (C63_raised_update_leaves_stale)."
  },
  {
   "property": "C64",
   "status": "proved",
   "theorems": [
    "C64_area_of_ring",
    "C64_area_positive",
    "C64_second_moment_of_ring",
    "C64_second_moment_positive",
    "C64_plastic_modulus_of_ring"
   ],
   "note": "Area, second moment and plastic modulus are those of the outer minus the inner rounded rectangle."
  },
  {
   "property": "C65",
   "status": "partial",
   "theorems": [
    "C65_shear_areas_refuted",
    "C65_formula_partial"
   ],
   "note": "REFUTED: update_properties computes the width direction shear area with B twice, so the two shear areas add up to A only for square sections; the formula itself is right (C65_formula_partial)."
  },
  {
   "property": "C66",
   "status": "proved",
   "theorems": [
    "C66_rhs",
    "C66_rolled_i",
    "C66_welded_i"
   ],
   "note": ""
  },
  {
   "property": "C67",
   "status": "proved",
   "theorems": [
    "C67_chs",
    "C67_axis_reads_raise"
   ],
   "note": "Finding: second moment and moduli are stored as single numbers, so reading them per axis raises (C67_axis_reads_raise)."
  },
  {
   "property": "C68",
   "status": "proved",
   "theorems": [
    "C68_halves_area",
    "C68_plastic_modulus"
   ],
   "note": "Also: the plastic modulus is the integral of the distance to that axis."
  },
  {
   "property": "C69",
   "status": "proved",
   "theorems": [
    "C69_centroid",
    "C69_second_moment"
   ],
   "note": ""
  },
  {
   "property": "C70",
   "status": "proved",
   "theorems": [
    "C70_history",
    "C70_fresh",
    "C70_read_back",
    "C70_imperfection_frozen",
    "C70_imperfection_refuted"
   ],
   "note": "Finding: imperfection factors are frozen at construction (C70_imperfection_refuted)."
  },
  {
   "property": "C71",
   "status": "proved",
   "theorems": [
    "C71_uls_worst",
    "C71_consequence_class"
   ],
   "note": "Any other consequence class leaves the factor unset and raises (C71_consequence_class)."
  },
  {
   "property": "C72",
   "status": "partial",
   "theorems": [
    "C72_frequent",
    "C72_quasi_permanent",
    "C72_characteristic_partial",
    "C72_characteristic_refuted"
   ],
   "note": "Frequent and quasi-permanent combinations proved; the characteristic combination is chosen and valued with psi2 for the accompanying loads but reported with psi0: REFUTED (C72_characteristic_refuted)."
  },
  {
   "property": "C73",
   "status": "proved",
   "theorems": [
    "C73_add_monotone"
   ],
   "note": ""
  },
  {
   "property": "C74",
   "status": "proved",
   "theorems": [
    "C74_walls",
    "C74_flat_roof"
   ],
   "note": ""
  },
  {
   "property": "C75",
   "status": "proved",
   "theorems": [
    "C75_formula",
    "C75_monotone",
    "C75_below_minimum_height",
    "C75_category"
   ],
   "note": ""
  },
  {
   "property": "C76",
   "status": "proved",
   "theorems": [
    "C76_interpolate",
    "C76_empty_interval"
   ],
   "note": ""
  },
  {
   "property": "C77",
   "status": "partial",
   "theorems": [
    "C77_before_charring",
    "C77_unprotected",
    "C77_monotone_partial",
    "C77_standard_times",
    "C77_failure_time_refuted",
    "C77_unset"
   ],
   "note": "Monotone over all times other than exactly the failure time, where the depth jumps up and falls back: REFUTED (C77_failure_time_refuted)."
  },
  {
   "property": "C78",
   "status": "partial",
   "theorems": [
    "C78_loads_kept_partial",
    "C78_loads_kept_refuted",
    "C78_case_refuted",
    "C78_ids_twice",
    "C78_line_twice"
   ],
   "note": "Proved for names that do not end in a digit; REFUTED in general: the loads P, P2, P leave only two loads, and a load case drops a second load of the same name."
  },
  {
   "property": "C79",
   "status": "proved",
   "theorems": [
    "C79_nodes",
    "C79_members",
    "C79_node_twice"
   ],
   "note": "For distinct objects; adding the same node object twice gives it two positions (C79_node_twice)."
  },
  {
   "property": "C80",
   "status": "proved",
   "theorems": [
    "C80_ends_continuous",
    "C80_total"
   ],
   "note": "Total force and moment, end values and continuity."
  },
  {
   "property": "C81",
   "status": "proved",
   "theorems": [
    "C81_annuity",
    "C81_zero_interest"
   ],
   "note": "Finding: zero interest raises (C81_zero_interest)."
  },
  {
   "property": "C82",
   "status": "partial",
   "theorems": [
    "C82_monotone_partial",
    "C82_new_centre",
    "C82_default_centres",
    "C82_thick_plate_refuted"
   ],
   "note": "Proved except the last clause; REFUTED for plates thicker than 157 mm, whose cutting speed and cost are negative."
  },
  {
   "property": "C83",
   "status": "partial",
   "theorems": [
    "C83_scaling_preserves_written_value_partial",
    "C83_list_target_refuted",
    "C83_scale_twice_refuted"
   ],
   "note": "REFUTED for list targets without target_fun and for scaling twice; proved for single targets scaled once"
  },
  {
   "property": "C84",
   "status": "proved",
   "theorems": [
    "C84_constraint_analysis_is_fresh"
   ],
   "note": ""
  },
  {
   "property": "C85",
   "status": "partial",
   "theorems": [
    "C85_linearize_fresh_without_gradient_partial",
    "C85_linearize_stale_refuted",
    "C85_objective_stale_refuted"
   ],
   "note": "REFUTED when an objective gradient is supplied and for objectives with fea_required; proved for numerical gradients"
  },
  {
   "property": "C86",
   "status": "partial",
   "theorems": [
    "C86_first_point_kept_partial",
    "C86_zero_start_refuted"
   ],
   "note": "REFUTED when the first point is the zero vector (np.any); proved when no point is zero"
  },
  {
   "property": "C87",
   "status": "proved",
   "theorems": [
    "C87_value",
    "C87_inverse_barrier"
   ],
   "note": ""
  },
  {
   "property": "C88",
   "status": "partial",
   "theorems": [
    "C88_history_characterised_partial",
    "C88_history_refuted"
   ],
   "note": "REFUTED for xvals and for an x0 passed as an array (changed in place); exact contents of the history proved, problem.states is the visited points"
  },
  {
   "property": "C89",
   "status": "partial",
   "theorems": [
    "C89_subproblem_rows_partial",
    "C89_gt_rows_refuted",
    "C89_relaxation"
   ],
   "note": "proved for '<' constraints; REFUTED for '>' constraints"
  },
  {
   "property": "C90",
   "status": "partial",
   "theorems": [
    "C90_added_element_refuted",
    "C90_unchanged_model_partial"
   ],
   "note": "REFUTED for additions after an analysis; proved for an unchanged model"
  },
  {
   "property": "C91",
   "status": "proved",
   "theorems": [
    "C91_symmetric",
    "C91_sign",
    "C91_translation",
    "C91_rotation"
   ],
   "note": ""
  },
  {
   "property": "C92",
   "status": "proved",
   "theorems": [
    "C92_symmetric",
    "C92_rigid_motion"
   ],
   "note": ""
  },
  {
   "property": "C93",
   "status": "proved",
   "theorems": [
    "C93_symmetric",
    "C93_energy",
    "C93_semidefinite",
    "C93_rigid_motion"
   ],
   "note": ""
  },
  {
   "property": "C94",
   "status": "partial",
   "theorems": [
    "C94_unloaded",
    "C94_member_equilibrium",
    "C94_single_load_partial",
    "C94_two_loads_refuted"
   ],
   "note": "proved for one line load per load case; REFUTED for two"
  },
  {
   "property": "C95",
   "status": "partial",
   "theorems": [
    "C95_fresh_matrix",
    "C95_joint_after_analysis_refuted",
    "C95_joint_seen_partial"
   ],
   "note": "REFUTED after an evaluation; proved otherwise"
  },
  {
   "property": "C96",
   "status": "partial",
   "theorems": [
    "C96_tip",
    "C96_support_partial",
    "C96_uniform_compression_refuted"
   ],
   "note": "proved except at a stress ratio of 1 with the larger stress at the support; REFUTED there"
  },
  {
   "property": "C97",
   "status": "proved",
   "theorems": [
    "C97_defined",
    "C97_thickness",
    "C97_width"
   ],
   "note": ""
  },
  {
   "property": "C98",
   "status": "proved",
   "theorems": [
    "C98_flanges",
    "C98_coefficient",
    "C98_coefficient_continuous",
    "C98_coefficient_monotone",
    "C98_resistance",
    "C98_thickness"
   ],
   "note": ""
  },
  {
   "property": "C99",
   "status": "partial",
   "theorems": [
    "C99_coefficients",
    "C99_end_range",
    "C99_end_bearing_refuted",
    "C99_range_partial",
    "C99_bearing_length_partial"
   ],
   "note": "REFUTED near an unstiffened end (load type c): the resistance falls when the bearing length grows from 210 to 212 (C99_end_bearing_refuted); the bound there is the yield load of the loaded length (C99_end_range). Load types a and b are proved in full."
  },
  {
   "property": "C100",
   "status": "proved",
   "theorems": [
    "C100_range",
    "C100_monotone"
   ],
   "note": ""
  },
  {
   "property": "C101",
   "status": "proved",
   "theorems": [
    "C101_flux_sign",
    "C101_flux_monotone",
    "C101_specific_heats",
    "C101_step"
   ],
   "note": ""
  },
  {
   "property": "C102",
   "status": "proved",
   "theorems": [
    "C102_steel",
    "C102_stainless",
    "C102_any_curve",
    "C102_standard_curve",
    "C102_hydrocarbon_curve",
    "C102_entries",
    "C102_bad_step_diverges"
   ],
   "note": ""
  },
  {
   "property": "C103",
   "status": "partial",
   "theorems": [
    "C103_welded_interaction_refuted"
   ],
   "note": "REFUTED: the flange areas are subtracted from one another, so every doubly symmetric section gets a = 0.5 and too large a reduced moment (C103_welded_interaction_refuted); bounds and monotonicity hold (C66_welded_i)."
  },
  {
   "property": "C104",
   "status": "partial",
   "theorems": [
    "C104_exact_value",
    "C104_first_read_refuted",
    "C104_class3_effective_area_refuted"
   ],
   "note": "REFUTED: for every compact doubly symmetric section the effective area exceeds the gross area by half of the web."
  },
  {
   "property": "C105",
   "status": "proved",
   "theorems": [
    "C105_rhs",
    "C105_welded_major",
    "C105_welded_minor"
   ],
   "note": "CHS: C67_chs."
  },
  {
   "property": "C106",
   "status": "partial",
   "theorems": [
    "C106_rhs_partial",
    "C106_welded_i_refuted",
    "C106_rolled_i_refuted"
   ],
   "note": "Holds for RHS; REFUTED for welded I (one top flange width missing) and rolled I (2 tw missing)."
  },
  {
   "property": "C107",
   "status": "partial",
   "theorems": [
    "C107_shear_centre_partial",
    "C107_wagner_refuted"
   ],
   "note": "Shear centre proved; REFUTED for zj, which is negative for every doubly symmetric section."
  },
  {
   "property": "C108",
   "status": "partial",
   "theorems": [
    "C108_upside_down_partial",
    "C108_paint_refuted"
   ],
   "note": "Everything but the perimeter, which changes by the difference of the flange widths (C108_paint_refuted). The warping constant is not covered."
  },
  {
   "property": "C109",
   "status": "partial",
   "theorems": [
    "C109_plastic_axis_partial",
    "C109_centroid_refuted",
    "C109_modulus_refuted"
   ],
   "note": "Plastic axis proved; elastic axis counts one web only and the top fibre distance uses the flange width for its thickness: both REFUTED."
  },
  {
   "property": "C110",
   "status": "partial",
   "theorems": [
    "C110_class_partial",
    "C110_tension_refuted",
    "C110_tension_raises_resistance"
   ],
   "note": "Proved in compression, pure bending and pure tension; REFUTED for tension with bending: any tension of 1e-4 N makes the section class 1."
  },
  {
   "property": "C111",
   "status": "proved",
   "theorems": [
    "C111_utilisation"
   ],
   "note": ""
  },
  {
   "property": "C112",
   "status": "partial",
   "theorems": [
    "C112_square_partial",
    "C112_edit_refuted"
   ],
   "note": "Holds after construction; REFUTED after assigning the height, which leaves the width."
  },
  {
   "property": "C113",
   "status": "proved",
   "theorems": [
    "C113_accidental"
   ],
   "note": ""
  },
  {
   "property": "C114",
   "status": "partial",
   "theorems": [
    "C114_factor",
    "C114_loads_partial",
    "C114_twice_refuted"
   ],
   "note": "Bounds and scope proved; REFUTED idempotence: a second call reduces again."
  },
  {
   "property": "C115",
   "status": "partial",
   "theorems": [
    "C115_rounding_partial",
    "C115_direction_z_refuted"
   ],
   "note": "Proved for directions x and y; loads in direction z are dropped: REFUTED."
  },
  {
   "property": "C116",
   "status": "partial",
   "theorems": [
    "C116_range",
    "C116_monotone_no_jumps",
    "C116_table",
    "C116_wall_partial",
    "C116_small_wall_refuted"
   ],
   "note": "Proved for walls above 10 square metres; smaller walls get zero coefficients: REFUTED."
  },
  {
   "property": "C117",
   "status": "partial",
   "theorems": [
    "C117_leeward_range",
    "C117_leeward_table_partial",
    "C117_leeward_no_jumps",
    "C117_windward_refuted",
    "C117_pressure_refuted"
   ],
   "note": "Proved for wind on the high eave; REFUTED for wind on the low eave between 5 and 15 degrees, and the pressures are always zero."
  },
  {
   "property": "C118",
   "status": "partial",
   "theorems": [
    "C118_duration",
    "C118_service_class",
    "C118_design_strength",
    "C118_panel_partial",
    "C118_panel_refuted"
   ],
   "note": "Everything except panels crossing 20 mm in wood denser than 450 kg/m3, where the thicker panel chars sooner: REFUTED."
  },
  {
   "property": "C119",
   "status": "proved",
   "theorems": [
    "C119_combination",
    "C119_leading_case",
    "C119_factors",
    "C119_user_factor_refuted"
   ],
   "note": "For loads whose names do not end in a digit (see C78). Finding: a scaling factor given by the user is lost in the combination (C119_user_factor_refuted)."
  },
  {
   "property": "C120",
   "status": "partial",
   "theorems": [
    "C120_clear_partial",
    "C120_recombine_refuted"
   ],
   "note": "Removal proved; REFUTED: adding combination 1 again destroys a load of combination 2."
  },
  {
   "property": "C121",
   "status": "proved",
   "theorems": [
    "C121_direction_unit",
    "C121_local_global",
    "C121_nodes",
    "C121_element_length",
    "C121_perpendicular"
   ],
   "note": ""
  },
  {
   "property": "C122",
   "status": "proved",
   "theorems": [
    "C122_angle"
   ],
   "note": ""
  },
  {
   "property": "C123",
   "status": "proved",
   "theorems": [
    "C123_mesh"
   ],
   "note": ""
  },
  {
   "property": "C124",
   "status": "partial",
   "theorems": [
    "C124_design_force_partial",
    "C124_jump_refuted"
   ],
   "note": "Proved for forces continuous between the elements; REFUTED at jumps (point moments, point loads), where the end value of an element is ignored."
  },
  {
   "property": "C125",
   "status": "partial",
   "theorems": [
    "C125_extreme_partial",
    "C125_extreme_refuted"
   ],
   "note": "Proved for values of one sign; REFUTED: the cases are compared by absolute value, so the maximum of 5 and -100 is -100."
  },
  {
   "property": "C126",
   "status": "partial",
   "theorems": [
    "C126_own_hinges_partial",
    "C126_shared_hinges_refuted"
   ],
   "note": "Proved for members created with their own hinge list; REFUTED for the default, one list shared by all members."
  },
  {
   "property": "C127",
   "status": "partial",
   "theorems": [
    "C127_history_refuted",
    "C127_self_weight_refuted"
   ],
   "note": "REFUTED: the first call is right, the k-th call leaves k self-weight loads per member (C127_self_weight_refuted has both)."
  },
  {
   "property": "C128",
   "status": "partial",
   "theorems": [
    "C128_first_passing_profile_partial",
    "C128_no_profile_refuted",
    "C128_sweeps",
    "C128_groups_refuted"
   ],
   "note": "The first passing profile is found if there is one; REFUTED: otherwise the last profile is kept silently, and group changes do not count as changes."
  },
  {
   "property": "C129",
   "status": "partial",
   "theorems": [
    "C129_set_section",
    "C129_make_group",
    "C129_add_partial",
    "C129_add_refuted"
   ],
   "note": "Creating and setting proved; REFUTED for adding a member with another profile."
  },
  {
   "property": "C130",
   "status": "partial",
   "theorems": [
    "C130_utilizations_partial",
    "C130_flag_refuted"
   ],
   "note": "Utilisations proved; REFUTED: the flag is that of the last load case."
  },
  {
   "property": "C131",
   "status": "partial",
   "theorems": [
    "C131_piecewise_partial",
    "C131_vertical_refuted",
    "C131_reversed_refuted"
   ],
   "note": "Proved for members running to the right; REFUTED for vertical members and members running to the left."
  },
  {
   "property": "C132",
   "status": "proved",
   "theorems": [
    "C132_repeatable"
   ],
   "note": ""
  },
  {
   "property": "C133",
   "status": "partial",
   "theorems": [
    "C133_cutting_partial",
    "C133_cutting_refuted"
   ],
   "note": "Proved up to 27 mm and for every plate above 30 mm; REFUTED between 27.3 and 30 mm."
  },
  {
   "property": "C134",
   "status": "proved",
   "theorems": [
    "C134_painting",
    "C134_blasting",
    "C134_paint_data"
   ],
   "note": ""
  },
  {
   "property": "C135",
   "status": "partial",
   "theorems": [
    "C135_fillet",
    "C135_butt_partial",
    "C135_butt_refuted"
   ],
   "note": "Fillet welds proved (sizes above 0.001 mm), butt welds from 0.5 mm; REFUTED below: negative time."
  },
  {
   "property": "C136",
   "status": "partial",
   "theorems": [
    "C136_sawing_partial",
    "C136_sawing_time",
    "C136_sawing_refuted"
   ],
   "note": "Non-negative, monotone in length and bevels, time monotone in everything; REFUTED: the blade cost is divided by the time."
  },
  {
   "property": "C137",
   "status": "proved",
   "theorems": [
    "C137_annuity_monotone"
   ],
   "note": ""
  },
  {
   "property": "C138",
   "status": "partial",
   "theorems": [
    "C138_plate_partial",
    "C138_workshop_fair",
    "C138_costing_again",
    "C138_quantity",
    "C138_stale_weld_refuted",
    "C138_thickness_refuted"
   ],
   "note": "Proved: sign, repeated evaluation, width and height; REFUTED: thickness, and welds removed later stay in the cost."
  },
  {
   "property": "C139",
   "status": "partial",
   "theorems": [
    "C139_bolt_size_partial",
    "C139_bolt_size_refuted"
   ],
   "note": "REFUTED for sizes missing from the table: always priced as the largest."
  },
  {
   "property": "C140",
   "status": "proved",
   "theorems": [
    "C140_stock",
    "C140_length",
    "C140_available"
   ],
   "note": "Finding: the exception is a TypeError from comparing with the key 'max'; the table of fully threaded bolts is never reached."
  },
  {
   "property": "C141",
   "status": "proved",
   "theorems": [
    "C141_set_size"
   ],
   "note": ""
  },
  {
   "property": "C142",
   "status": "partial",
   "theorems": [
    "C142_class_names",
    "C142_thread_area",
    "C142_hexagons",
    "C142_sizes",
    "C142_head_diameter",
    "C142_functions",
    "C142_values_partial",
    "C142_ordering",
    "C142_free_function_refuted"
   ],
   "note": "Proved for the methods of Bolt; REFUTED for the free function, whose thread flag is swapped for classes 4.8, 5.8, 6.8 and 10.9."
  },
  {
   "property": "C143",
   "status": "partial",
   "theorems": [
    "C143_table_3_4",
    "C143_bearing_function",
    "C143_bearing_partial",
    "C143_free_function_refuted"
   ],
   "note": "Proved for the method; REFUTED for the free function, which leaves out the partial factor 1.25."
  },
  {
   "property": "C144",
   "status": "partial",
   "theorems": [
    "C144_interaction_partial",
    "C144_tension_refuted"
   ],
   "note": "Proved: shear part and 1.4 times the tension resistance; REFUTED: tension above the tension resistance passes with a utilisation of at most one (the separate check of the code is missing)."
  },
  {
   "property": "C145",
   "status": "proved",
   "theorems": [
    "C145_block_tearing"
   ],
   "note": ""
  },
  {
   "property": "C146",
   "status": "proved",
   "theorems": [
    "C146_throat",
    "C146_full_strength"
   ],
   "note": ""
  },
  {
   "property": "C147",
   "status": "proved",
   "theorems": [
    "C147_modes",
    "C147_monotone"
   ],
   "note": ""
  },
  {
   "property": "C148",
   "status": "proved",
   "theorems": [
    "C148_inner_row"
   ],
   "note": ""
  },
  {
   "property": "C149",
   "status": "partial",
   "theorems": [
    "C149_after_resistance_partial",
    "C149_order",
    "C149_stale_refuted"
   ],
   "note": "Proved: correct when nothing changed since the last evaluation; REFUTED after a change of geometry; for a group the query raises before the resistance has been computed."
  },
  {
   "property": "C150",
   "status": "proved",
   "theorems": [
    "C150_table_6_4",
    "C150_table_6_4_group",
    "C150_table_6_6_outside",
    "C150_table_6_6",
    "C150_flange_lengths"
   ],
   "note": ""
  },
  {
   "property": "C151",
   "status": "partial",
   "theorems": [
    "C151_components",
    "C151_bolts",
    "C151_defined_partial",
    "C151_stiffener_refuted"
   ],
   "note": "Proved for joints without a stiffener at the top flange; REFUTED with one: the computation always raises. Rows outside the flange use 1e8 for the beam web."
  },
  {
   "property": "C152",
   "status": "partial",
   "theorems": [
    "C152_chain",
    "C152_plate_order_partial",
    "C152_group_bolts",
    "C152_group_bolt_sum",
    "C152_components",
    "C152_minimum",
    "C152_plate_order_refuted"
   ],
   "note": "Proved for column flange groups of any size and for end-plate groups when the non-circular length is computed first; REFUTED otherwise. A group of a single row raises; some combinations of positions give an infinite resistance."
  },
  {
   "property": "C153",
   "status": "proved",
   "theorems": [
    "C153_series",
    "C153_group_length"
   ],
   "note": ""
  },
  {
   "property": "C154",
   "status": "partial",
   "theorems": [
    "C154_omega_partial",
    "C154_omega_refuted"
   ],
   "note": "Proved on [0, 1] and at 2; REFUTED between 1.5 and 2, where the factor exceeds one; outside [0, 2] it is zero."
  },
  {
   "property": "C155",
   "status": "proved",
   "theorems": [
    "C155_compression_value",
    "C155_stiffness",
    "C155_compression",
    "C155_tension",
    "C155_shear",
    "C155_stress_factor"
   ],
   "note": ""
  },
  {
   "property": "C156",
   "status": "proved",
   "theorems": [
    "C156_value",
    "C156_stiffened"
   ],
   "note": ""
  },
  {
   "property": "C157",
   "status": "proved",
   "theorems": [
    "C157_ratio"
   ],
   "note": ""
  },
  {
   "property": "C158",
   "status": "proved",
   "theorems": [
    "C158_alpha_value",
    "C158_boundary_curve",
    "C158_alpha",
    "C158_search"
   ],
   "note": "The search gives no value within tolerance guarantee when it runs to its limit; the theorem then describes the whole sequence."
  },
  {
   "property": "C159",
   "status": "proved",
   "theorems": [
    "C159_measures",
    "C159_stiffener",
    "C159_geometry"
   ],
   "note": ""
  },
  {
   "property": "C160",
   "status": "proved",
   "theorems": [
    "C160_intersect"
   ],
   "note": ""
  },
  {
   "property": "C161",
   "status": "partial",
   "theorems": [
    "C161_distance_partial",
    "C161_distance_refuted",
    "C161_through_points",
    "C161_rotate"
   ],
   "note": "REFUTED for a direction that is not of unit length: the direction given by the caller is used as it is, and the point returned is then not the nearest (C161_distance_refuted). Proved for unit directions and for lines through two points."
  },
  {
   "property": "C162",
   "status": "proved",
   "theorems": [
    "C162_eccentricity",
    "C162_of_joint"
   ],
   "note": ""
  },
  {
   "property": "C163",
   "status": "partial",
   "theorems": [
    "C163_reduction_partial",
    "C163_reduced_strength_refuted",
    "C163_new_joint_reduction"
   ],
   "note": "REFUTED in the last clause: at 355 and 460 the factor steps down, so a slightly stronger steel has a lower reduced strength (C163_reduced_strength_refuted). The other clauses are proved."
  },
  {
   "property": "C164",
   "status": "proved",
   "theorems": [
    "C164_stress",
    "C164_stress_function",
    "C164_value"
   ],
   "note": ""
  },
  {
   "property": "C165",
   "status": "proved",
   "theorems": [
    "C165_positive",
    "C165_angle",
    "C165_chord_force",
    "C165_values",
    "C165_beta_square"
   ],
   "note": "The design method itself raises for every joint: np.array receives the chord utilisation as its data type. The resistances it compares are modelled."
  },
  {
   "property": "C166",
   "status": "proved",
   "theorems": [
    "C166_shear_area",
    "C166_shear_area_gap",
    "C166_axial"
   ],
   "note": "Under the condition that the shear area does not exceed the area of the chord."
  },
  {
   "property": "C167",
   "status": "partial",
   "theorems": [
    "C167_compression_partial",
    "C167_tension_refuted",
    "C167_gap_force_refuted"
   ],
   "note": "REFUTED for the tension force: it is reported as zero when the first brace is compressed, and as the force of the compressed brace otherwise (C167_tension_refuted); the chord force in the gap raises for every compressed chord (C167_gap_force_refuted). Proved: compression force, its angle and the gap shear."
  },
  {
   "property": "C168",
   "status": "partial",
   "theorems": [
    "C168_chord_stress_refuted",
    "C168_positive_partial",
    "C168_angle_partial",
    "C168_values_partial"
   ],
   "note": "REFUTED for the chord stress: the reduction factor is raised to the power of the stress function instead of being multiplied, so the chord stress has no effect for a factor of 1, and more compression increases the resistance for a factor below 1 (C168_chord_stress_refuted). Proved: positivity, table values, monotonicity in the angle."
  },
  {
   "property": "C169",
   "status": "partial",
   "theorems": [
    "C169_utilisation_partial",
    "C169_interpolation_refuted",
    "C169_wide_brace_refuted"
   ],
   "note": "REFUTED: the interpolation uses the chord face resistance at the actual width ratio and is higher than the interpolation from 0.85 (C169_interpolation_refuted); a brace wider than the chord can give a negative utilisation (C169_wide_brace_refuted). Proved for width ratios below 0.85."
  },
  {
   "property": "C170",
   "status": "partial",
   "theorems": [
    "C170_side_wall_partial",
    "C170_new_joint_refuted",
    "C170_slenderness_squared"
   ],
   "note": "REFUTED for stocky chords: the reduction factor is not limited to 1 (last clause of C170_side_wall_partial); a new joint stores the absolute force and never detects compression (C170_new_joint_refuted)."
  },
  {
   "property": "C171",
   "status": "partial",
   "theorems": [
    "C171_x_joint_partial"
   ],
   "note": "REFUTED: with a width ratio of at least 0.85 the design raises for braces in compression and for flat braces (clauses two and three of C171_x_joint_partial). Proved: equality with the Y joint otherwise."
  },
  {
   "property": "C172",
   "status": "proved",
   "theorems": [
    "C172_sections",
    "C172_setters",
    "C172_envelopes"
   ],
   "note": ""
  },
  {
   "property": "C173",
   "status": "proved",
   "theorems": [
    "C173_euler_load",
    "C173_strength"
   ],
   "note": ""
  },
  {
   "property": "C174",
   "status": "partial",
   "theorems": [
    "C174_torsion_refuted",
    "C174_torsion_partial"
   ],
   "note": "REFUTED: design never evaluates torsional buckling (C174_torsion_refuted). Proved: the torsional strength is below the critical load and the yield load (also in C173_strength)."
  },
  {
   "property": "C175",
   "status": "proved",
   "theorems": [
    "C175_lateral_torsional",
    "C175_check"
   ],
   "note": ""
  },
  {
   "property": "C176",
   "status": "partial",
   "theorems": [
    "C176_critical_moment_partial",
    "C176_mono_load_level_refuted"
   ],
   "note": "REFUTED for monosymmetric sections: the load level is ignored (C176_mono_load_level_refuted; an unknown symmetry raises). Proved in full for doubly symmetric sections. mcrit_buckling returns nothing and is not modelled."
  },
  {
   "property": "C177",
   "status": "proved",
   "theorems": [
    "C177_cantilever",
    "C177_position_coefficients",
    "C177_C2_table"
   ],
   "note": ""
  },
  {
   "property": "C178",
   "status": "proved",
   "theorems": [
    "C178_max_over_sections",
    "C178_plane_only"
   ],
   "note": "Finding: transverse shear, torsion and the size of the minor axis moment never enter (C178_plane_only)."
  },
  {
   "property": "C179",
   "status": "proved",
   "theorems": [
    "C179_buckling"
   ],
   "note": ""
  },
  {
   "property": "C180",
   "status": "partial",
   "theorems": [
    "C180_beam_column_partial",
    "C180_value",
    "C180_lateral_torsional_refuted",
    "C180_interaction_factor_refuted"
   ],
   "note": "REFUTED: with lateral torsional buckling the check raises for every bending moment (C180_lateral_torsional_refuted); the interaction factor is negative for overloaded stocky members (C180_interaction_factor_refuted). Proved for slenderness of at least 0.2 or compression of at most five times the strength, without lateral torsional buckling."
  },
  {
   "property": "C181",
   "status": "partial",
   "theorems": [
    "C181_moment_factor_partial",
    "C181_stale_factor_refuted"
   ],
   "note": "REFUTED: after clear_sections the factor of the former sections is used (C181_stale_factor_refuted). Proved when both end sections exist."
  },
  {
   "property": "C182",
   "status": "partial",
   "theorems": [
    "C182_design_partial",
    "C182_history_partial",
    "C182_history_refuted",
    "C182_lateral_torsional_refuted"
   ],
   "note": "REFUTED: without sections at both ends the value depends on earlier use (C182_history_refuted); with lateral torsional buckling, compression and bending the design raises (C182_lateral_torsional_refuted). Proved in all other cases."
  },
  {
   "property": "C183",
   "status": "proved",
   "theorems": [
    "C183_stiffness_weight_cost"
   ],
   "note": ""
  },
  {
   "property": "C184",
   "status": "proved",
   "theorems": [
    "C184_resistances",
    "C184_slenderness"
   ],
   "note": ""
  },
  {
   "property": "C185",
   "status": "proved",
   "theorems": [
    "C185_plastic",
    "C185_elastic",
    "C185_torsion",
    "C185_utility"
   ],
   "note": "Finding: for classes 3 and 4 the code uses min(slenderness, 0.6) instead of 0.6 min(slenderness, 1), so it exceeds Table B.1 for slenderness below 1 (C185_elastic)."
  },
  {
   "property": "C186",
   "status": "proved",
   "theorems": [
    "C186_generic",
    "C186_charring_rate",
    "C186_hardwood_refuted",
    "C186_positive",
    "C186_start",
    "C186_shrinks",
    "C186_four_sides",
    "C186_dimensions",
    "C186_unprotected_depth",
    "C186_notional_rate"
   ],
   "note": "Sections of hardwood grades take the softwood charring rate (finding C186_hardwood_refuted: 0.8 instead of 0.55 mm/min)."
  },
  {
   "property": "C187",
   "status": "partial",
   "theorems": [
    "C187_gypsum",
    "C187_gap",
    "C187_assignment_partial",
    "C187_late_generic_refuted",
    "C187_generic_board"
   ],
   "note": "REFUTED for setters: a generic board set after construction is not prepared and the section raises from its charring start on (C187_late_generic_refuted). The rest is proved."
  },
  {
   "property": "C188",
   "status": "partial",
   "theorems": [
    "C188_lvl_flat",
    "C188_grades_partial",
    "C188_design_values",
    "C188_classes",
    "C188_glulam_order_refuted",
    "C188_lvl_flatwise",
    "C188_lowest_class"
   ],
   "note": "REFUTED for glulam: GL30h is listed weaker than GL30c (C188_glulam_order_refuted). Solid timber classes and the physical order are proved."
  },
  {
   "property": "C189",
   "status": "proved",
   "theorems": [
    "C189_range",
    "C189_side",
    "C189_resistance",
    "C189_length",
    "C189_factor_refuted"
   ],
   "note": "Finding: the factor itself can rise with the height where the reference dimension changes (C189_factor_refuted)."
  },
  {
   "property": "C190",
   "status": "partial",
   "theorems": [
    "C190_single_taper",
    "C190_ridge_partial",
    "C190_belly",
    "C190_volume",
    "C190_elements",
    "C190_low_ridge_refuted",
    "C190_belly_end_refuted"
   ],
   "note": "REFUTED: a ridge lower than the supports changes the end heights (C190_low_ridge_refuted); a belly beam's ends are h0/cos(alpha), larger than the given height (C190_belly_end_refuted). All other parts proved."
  },
  {
   "property": "C191",
   "status": "proved",
   "theorems": [
    "C191_curved",
    "C191_curved_ridge"
   ],
   "note": ""
  },
  {
   "property": "C192",
   "status": "proved",
   "theorems": [
    "C192_lengths",
    "C192_segments"
   ],
   "note": ""
  },
  {
   "property": "C193",
   "status": "proved",
   "theorems": [
    "C193_factor",
    "C193_length"
   ],
   "note": "Finding: below slenderness 0.3 the factor exceeds one."
  },
  {
   "property": "C194",
   "status": "partial",
   "theorems": [
    "C194_k_crit_partial",
    "C194_effective_length",
    "C194_critical_stress",
    "C194_jump",
    "C194_negative_length_refuted"
   ],
   "note": "REFUTED for load on the tension edge: the effective length and critical stress can be negative (C194_negative_length_refuted); everything else proved for positive effective lengths. The jump of 0.0002 at 1.4 is that of the standard (C194_jump)."
  },
  {
   "property": "C195",
   "status": "partial",
   "theorems": [
    "C195_torsion_partial",
    "C195_shape",
    "C195_rotated_refuted",
    "C195_jump_refuted",
    "C195_square_refuted",
    "C195_constant_refuted",
    "C195_slender_rectangles"
   ],
   "note": "REFUTED: a section wider than high gets the stress of the turned section scaled by h/b (C195_rotated_refuted); the coefficient drops past tabulated ratios (C195_jump_refuted); the torsional constant of a square is 0.534 a^4 and off-table ratios exceed one third (C195_square_refuted, C195_constant_refuted). Bounds for h >= b proved."
  },
  {
   "property": "C196",
   "status": "partial",
   "theorems": [
    "C196_axial",
    "C196_crack",
    "C196_shear",
    "C196_bending_partial",
    "C196_tension_partial",
    "C196_compression_partial",
    "C196_torsion_refuted"
   ],
   "note": "REFUTED for signs: bending stresses of opposite sign, a negative weak-axis moment and compression in the tension check lower the utilisation (exactly when is part of C196_bending_partial, C196_tension_partial, C196_compression_partial); negative torsion gives a negative utilisation (C196_torsion_refuted). Axial force and shear proved in full."
  },
  {
   "property": "C197",
   "status": "proved",
   "theorems": [
    "C197_section",
    "C197_check"
   ],
   "note": ""
  },
  {
   "property": "C198",
   "status": "partial",
   "theorems": [
    "C198_segment",
    "C198_buckling_partial",
    "C198_lateral_torsional_partial",
    "C198_sign_refuted"
   ],
   "note": "REFUTED for a negative weak-axis moment (C198_sign_refuted) and, without axial force, for a negative moment (C198_lateral_torsional_partial, second part). Proved for non-negative weak-axis moments."
  },
  {
   "property": "C199",
   "status": "partial",
   "theorems": [
    "C199_sections",
    "C199_design",
    "C199_strong_enough",
    "C199_verdict_partial",
    "C199_perpendicular_refuted",
    "C199_column_refuted",
    "C199_largest_of_sections"
   ],
   "note": "REFUTED: the strength flag ignores compression perpendicular to the grain and, for columns, includes lateral-torsional buckling that design omits (C199_perpendicular_refuted, C199_column_refuted). check_sections and design proved in full."
  },
  {
   "property": "C200",
   "status": "partial",
   "theorems": [
    "C200_k_p",
    "C200_k_dis",
    "C200_k_vol",
    "C200_k_m_alpha",
    "C200_k_r_partial",
    "C200_k_l_partial",
    "C200_k_r_refuted",
    "C200_k_l_refuted",
    "C200_k_vol_refuted",
    "C200_k_m_alpha_refuted"
   ],
   "note": "REFUTED against the standard: k_r multiplies the radius by 1000, k_l of curved ridge beams has 0.35 * -8 tan, k_vol ignores solid timber, k_m,alpha in tension uses the compression strength (the four _refuted theorems). k_p, k_dis and the remaining cases proved exactly."
  },
  {
   "property": "C201",
   "status": "proved",
   "theorems": [
    "C201_apex_moment"
   ],
   "note": ""
  },
  {
   "property": "C202",
   "status": "partial",
   "theorems": [
    "C202_bracing_partial",
    "C202_bracing_refuted",
    "C202_bearing_refuted",
    "C202_bearing_force_refuted",
    "C202_k_c90"
   ],
   "note": "REFUTED: the stiffness omits ks, the line load takes the span in millimetres (C202_bracing_refuted); the node comparison uses rel_tol = 10, always true, so the last section's force is used for every node (C202_bearing_refuted). Exact results proved."
  },
  {
   "property": "C203",
   "status": "proved",
   "theorems": [
    "C203_table_B3",
    "C203_simple_span"
   ],
   "note": "Finding: a span moment of exactly zero with end moments gets the value of a simply supported span (C203_simple_span)."
  },
  {
   "property": "C204",
   "status": "proved",
   "theorems": [
    "C204_conductivity",
    "C204_specific_heat",
    "C204_elongation"
   ],
   "note": ""
  },
  {
   "property": "C205",
   "status": "proved",
   "theorems": [
    "C205_added_load",
    "C205_unknown_class",
    "C205_new_combiner"
   ],
   "note": "The spacing multiplies area, imposed, snow and wind loads, not point or line dead loads, as the code does."
  },
  {
   "property": "C206",
   "status": "proved",
   "theorems": [
    "C206_factor",
    "C206_loads"
   ],
   "note": ""
  },
  {
   "property": "C207",
   "status": "proved",
   "theorems": [
    "C207_wall_zones",
    "C207_flat_roof_zones",
    "C207_terrain",
    "C207_velocity"
   ],
   "note": ""
  },
  {
   "property": "C208",
   "status": "proved",
   "theorems": [
    "C208_kmod",
    "C208_design_strength",
    "C208_charring_rate",
    "C208_charring_rate_lvl",
    "C208_charring_rate_unknown",
    "C208_charring_depth",
    "C208_zero_strength_layer",
    "C208_protection_times"
   ],
   "note": "Findings: softwood below 290 kg/m3 has no rate (C208_charring_rate_unknown); at exactly the failure time see C77."
  },
  {
   "property": "C209",
   "status": "proved",
   "theorems": [
    "C209_constraints",
    "C209_bounds",
    "C209_cobyla_bounds_refuted"
   ],
   "note": "COBYLA's missing bounds shown by C209_cobyla_bounds_refuted."
  },
  {
   "property": "C210",
   "status": "proved",
   "theorems": [
    "C210_unlocked",
    "C210_nonlinear",
    "C210_locked_refuted"
   ],
   "note": "As stated, restrictions included. Holds for nonlinear constraints and when nothing is locked; REFUTED for linear constraints with locked variables (C210_locked_refuted)."
  },
  {
   "property": "C211",
   "status": "proved",
   "theorems": [
    "C211_rows",
    "C211_nonlinear_refuted",
    "C211_le_refuted",
    "C211_locked_refuted",
    "C211_milp_variables",
    "C211_milp_relaxation",
    "C211_milp_integer_refuted"
   ],
   "note": "As stated, restrictions included. Holds for linear constraints of type <, >, = without locked variables and continuous or binary variables; the refuted theorems show each restriction is needed."
  },
  {
   "property": "C212",
   "status": "proved",
   "theorems": [
    "C212_range",
    "C212_neighbours",
    "C212_selection",
    "C212_rows",
    "C212_rounding",
    "C212_checker",
    "C212_gt_refuted",
    "C212_binary_refuted",
    "C212_rounding_refuted"
   ],
   "note": "As stated, restrictions included. Ranges, neighbours, rounding error and checker hold; rows for '>' missing, no selection next to binary variables, rounding may leave the catalogue (refuted theorems)."
  },
  {
   "property": "C213",
   "status": "proved",
   "theorems": [
    "C213_weights",
    "C213_probabilities",
    "C213_local_update",
    "C213_global_update",
    "C213_better_adds_more",
    "C213_positive",
    "C213_best"
   ],
   "note": "If fewer than top ants exist the global update raises IndexError (part of C213_global_update)."
  },
  {
   "property": "C214",
   "status": "proved",
   "theorems": [
    "C214_best",
    "C214_penalty",
    "C214_cache",
    "C214_point",
    "C214_types_refuted",
    "C214_unrounded_refuted"
   ],
   "note": "As stated, restrictions included. Best fitness, penalty for '<' constraints and cache hold; penalty ignores types and the reported design is unrounded (refuted theorems)."
  },
  {
   "property": "C215",
   "status": "proved",
   "theorems": [
    "C215_step",
    "C215_run",
    "C215_heavy_refuted",
    "C215_bounds_refuted"
   ],
   "note": "As stated, restrictions included. Acceptance and decrease hold; start value 10000 and upper bound of the first variable only are refuted parts. When time runs out the pair is returned in the opposite order."
  },
  {
   "property": "C216",
   "status": "proved",
   "theorems": [
    "C216_neighbourhood",
    "C216_expansion",
    "C216_action",
    "C216_moves_to_point",
    "C216_accepts",
    "C216_partial_move_refuted",
    "C216_bounds_left_refuted",
    "C216_discrete_refuted",
    "C216_discrete_neighbours"
   ],
   "note": "As stated, restrictions included. Ranges and actions hold; partial moves rejected with numpy arrays, bounds left narrowed when giving up, discrete ranges too wide (refuted theorems)."
  },
  {
   "property": "C217",
   "status": "proved",
   "theorems": [
    "C217_direction",
    "C217_descent",
    "C217_total",
    "C217_failed_search",
    "C217_step",
    "C217_stopping",
    "C217_step_entry"
   ],
   "note": "As stated, restrictions included. Conditional on the line search (scipy), which is not modelled; a failing first line search raises (C217_failed_search)."
  },
  {
   "property": "C218",
   "status": "proved",
   "theorems": [
    "C218_run",
    "C218_optimal",
    "C218_reuse_refuted"
   ],
   "note": "As stated, restrictions included. Optimality for variables without upper bounds, because the upper bound multiplier is updated from the lower one (see C11/C12); the inner minimisation is an assumption; reuse of a solver object refuted."
  },
  {
   "property": "C219",
   "status": "proved",
   "theorems": [
    "C219_continuous",
    "C219_discrete",
    "C219_default_refuted",
    "C219_short_refuted",
    "C219_default_zero",
    "C219_default_values"
   ],
   "note": "As stated, restrictions included. Holds position by position; default values and short lists refuted."
  },
  {
   "property": "C220",
   "status": "proved",
   "theorems": [
    "C220_repayment",
    "C220_blasting",
    "C220_cutting",
    "C220_painting",
    "C220_welding",
    "C220_sawing",
    "C220_saw_tables",
    "C220_thickness_table",
    "C220_quantity_table",
    "C220_plate_total"
   ],
   "note": "Cost centres with the default dimensions; thickness of flame cutting away from the zero of the speed line."
  },
  {
   "property": "C221",
   "status": "proved",
   "theorems": [
    "C221_case_id",
    "C221_empty_case",
    "C221_sweep",
    "C221_fresh_members"
   ],
   "note": ""
  },
  {
   "property": "C222",
   "status": "proved",
   "theorems": [
    "C222_integrals",
    "C222_central",
    "C222_constructor",
    "C222_constructor_list"
   ],
   "note": ""
  },
  {
   "property": "C223",
   "status": "proved",
   "theorems": [
    "C223_centroid",
    "C223_moments",
    "C223_shear_centre",
    "C223_warping",
    "C223_isometry",
    "C223_torsion",
    "C223_backwards"
   ],
   "note": ""
  },
  {
   "property": "C224",
   "status": "proved",
   "theorems": [
    "C224_split",
    "C224_torsion_refuted"
   ],
   "note": "The failing torsion constant after a split is a finding (C224_torsion_refuted)."
  },
  {
   "property": "C225",
   "status": "proved",
   "theorems": [
    "C225_pole",
    "C225_unique",
    "C225_minimal"
   ],
   "note": ""
  },
  {
   "property": "C226",
   "status": "proved",
   "theorems": [
    "C226_shear_centre",
    "C226_centroid",
    "C226_mirrored",
    "C226_determinant"
   ],
   "note": ""
  },
  {
   "property": "C227",
   "status": "proved",
   "theorems": [
    "C227_scaled",
    "C227_shear_centre",
    "C227_units_refuted",
    "C227_torsion",
    "C227_torsion_modulus"
   ],
   "note": "The absolute threshold is a finding (C227_units_refuted)."
  },
  {
   "property": "C228",
   "status": "partial",
   "theorems": [
    "C228_fya",
    "C228_fya_monotone",
    "C228_corner_partial",
    "C228_corner_refuted",
    "C228_notional_width",
    "C228_one_corner_refuted",
    "C228_rounding",
    "C228_rounding_right_angles",
    "C228_one_entry"
   ],
   "note": "gr() uses the full angle (C228_corner_refuted); a single radius counts twice (C228_one_corner_refuted). The rest is proved."
  },
  {
   "property": "C229",
   "status": "partial",
   "theorems": [
    "C229_reduction_factor",
    "C229_decreasing_partial",
    "C229_decreasing_refuted",
    "C229_edge_stiffener",
    "C229_edge_stiffener_monotone",
    "C229_critical_stress",
    "C229_axial",
    "C229_axial_keywords",
    "C229_axial_slender_refuted"
   ],
   "note": "The reduction factor is neither below 1 nor decreasing (C229_decreasing_refuted); proved on each range."
  },
  {
   "property": "C230",
   "status": "partial",
   "theorems": [
    "C230_eurocode_refuted",
    "C230_positive",
    "C230_support_width_partial",
    "C230_support_width_refuted",
    "C230_interior",
    "C230_stiffened_flange"
   ],
   "note": "Angle factor and drop at ss/t = 60 refuted; with web stiffeners the function raises (UnboundLocalError)."
  },
  {
   "property": "C231",
   "status": "proved",
   "theorems": [
    "C231_internal",
    "C231_near_end",
    "C231_opposite",
    "C231_far",
    "C231_bearing_length",
    "C231_bearing_length_antitone",
    "C231_internal_above_end",
    "C231_monotone",
    "C231_new_end",
    "C231_order_refuted",
    "C231_forces_refuted",
    "C231_negative_refuted"
   ],
   "note": "As stated, the findings included."
  },
  {
   "property": "C232",
   "status": "partial",
   "theorems": [
    "C232_validity",
    "C232_validity_refuted",
    "C232_alfa",
    "C232_alfa_monotone",
    "C232_bearing",
    "C232_fire_partial",
    "C232_fire_refuted",
    "C232_table",
    "C232_table_monotone",
    "C232_screw_strength",
    "C232_net_section",
    "C232_net_section_value",
    "C232_values"
   ],
   "note": "Edge distance and fire bearing refuted; the rest is proved."
  },
  {
   "property": "C233",
   "status": "partial",
   "theorems": [
    "C233_rotational_partial",
    "C233_rotational_refuted",
    "C233_rotational_monotone",
    "C233_flange_factor",
    "C233_shear_stiffness",
    "C233_shear_stiffness_monotone",
    "C233_sheet_refuted",
    "C233_sheet_partial"
   ],
   "note": "Unsupported cases and sheet geometry refuted; proved for the supported cases and vertical webs."
  },
  {
   "property": "C234",
   "status": "proved",
   "theorems": [
    "C234_counts",
    "C234_no_duplicates"
   ],
   "note": "All lengths, patterns, panels and options."
  },
  {
   "property": "C235",
   "status": "partial",
   "theorems": [
    "C235_stable_partial",
    "C235_open_ends_refuted"
   ],
   "note": "Stable with closed ends and L1=L2; without end verticals it is refuted; unequal lengths are not covered."
  },
  {
   "property": "C236",
   "status": "proved",
   "theorems": [
    "C236_geometry",
    "C236_ridge_place_refuted",
    "C236_one_panel_refuted"
   ],
   "note": "The two findings of the statement are C236_ridge_place_refuted and C236_one_panel_refuted."
  },
  {
   "property": "C237",
   "status": "proved",
   "theorems": [
    "C237_offset_start",
    "C237_N",
    "C237_KT",
    "C237_K_refuted"
   ],
   "note": "The finding of the statement is C237_K_refuted, with the exact distances."
  },
  {
   "property": "C238",
   "status": "proved",
   "theorems": [
    "C238_joints"
   ],
   "note": "All lengths, patterns, panels and options."
  },
  {
   "property": "C239",
   "status": "proved",
   "theorems": [
    "C239_ridge_joint"
   ],
   "note": "Both clauses, with the exact set of trusses without a ridge joint."
  },
  {
   "property": "C240",
   "status": "partial",
   "theorems": [
    "C240_two_boundaries_partial",
    "C240_spanning_refuted",
    "C240_one_boundary_refuted",
    "C240_three_boundaries_refuted",
    "C240_uniform"
   ],
   "note": "Two boundaries proved; other numbers of boundaries and spanning members refuted."
  },
  {
   "property": "C241",
   "status": "proved",
   "theorems": [
    "C241_constructor",
    "C241_negative_height_refuted"
   ],
   "note": "As stated, the finding included."
  },
  {
   "property": "C242",
   "status": "proved",
   "theorems": [
    "C242_area",
    "C242_plastic",
    "C242_elastic",
    "C242_fillets"
   ],
   "note": "All clauses, for all dimensions in the quantifier."
  },
  {
   "property": "C243",
   "status": "proved",
   "theorems": [
    "C243_tubes",
    "C243_corner_radius",
    "C243_welded_i",
    "C243_imperfection",
    "C243_wq_inertia"
   ],
   "note": "All clauses."
  },
  {
   "property": "C244",
   "status": "proved",
   "theorems": [
    "C244_modulus_table",
    "C244_strengths",
    "C244_creep_annex_B",
    "C244_creep_monotone",
    "C244_creep_early",
    "C244_weights",
    "C244_cracked_factor"
   ],
   "note": "All clauses. Grades outside the table, and t0=None, raise and are not modelled."
  },
  {
   "property": "C245",
   "status": "proved",
   "theorems": [
    "C245_elastic",
    "C245_composite_coefficient",
    "C245_creep",
    "C245_modular_ratios",
    "C245_built_beam"
   ],
   "note": "All clauses."
  },
  {
   "property": "C246",
   "status": "partial",
   "theorems": [
    "C246_slab_axis_value",
    "C246_slab_axis_partial",
    "C246_steel_axis_refuted",
    "C246_axis_unique",
    "C246_concrete_force",
    "C246_web_force"
   ],
   "note": "Axis in the slab proved; with the axis in the steel the swapped formulas are stated with the exact error."
  },
  {
   "property": "C247",
   "status": "proved",
   "theorems": [
    "C247_core",
    "C247_second_moment_refuted",
    "C247_new_column",
    "C247_cover",
    "C247_weight"
   ],
   "note": "The findings of the statement are C247_second_moment_refuted and the second clause of C247_cover."
  },
  {
   "property": "C248",
   "status": "proved",
   "theorems": [
    "C248_contribution",
    "C248_concrete_modulus",
    "C248_resistance",
    "C248_longer_lasting",
    "C248_raises"
   ],
   "note": "All clauses, for the major axis; the minor axis raises (Ic is unbound)."
  },
  {
   "property": "C249",
   "status": "proved",
   "theorems": [
    "C249_plastic_moment",
    "C249_bars_cut_refuted"
   ],
   "note": "Both branches in equilibrium; the finding of the statement is C249_bars_cut_refuted."
  },
  {
   "property": "C250",
   "status": "proved",
   "theorems": [
    "C250_end_moments",
    "C250_second_order",
    "C250_design_moment_refuted",
    "C250_utilisation_refuted"
   ],
   "note": "Design moment and utilisation exact in each range; the findings of the statement are clauses of C250_design_moment_refuted and C250_utilisation_refuted."
  },
  {
   "property": "C251",
   "status": "proved",
   "theorems": [
    "C251_closed_form",
    "C251_monotone"
   ],
   "note": "All clauses."
  },
  {
   "property": "C252",
   "status": "proved",
   "theorems": [
    "C252_table_entry",
    "C252_range",
    "C252_table_shape",
    "C252_deeper_is_softer",
    "C252_outside",
    "C252_narrow_flange_refuted",
    "C252_index_from_end"
   ],
   "note": "All clauses; the finding of the statement is C252_narrow_flange_refuted."
  },
  {
   "property": "C253",
   "status": "proved",
   "theorems": [
    "C253_fastener",
    "C253_seam",
    "C253_seam_spacing",
    "C253_sheet_to_rafter",
    "C253_wide_spacing_refuted",
    "C253_eccs_fastener",
    "C253_eccs_end_fastener",
    "C253_eccs_other_diameter",
    "C253_en_fastener"
   ],
   "note": "The finding of the statement is C253_wide_spacing_refuted. edge_member_fastener_strength and end_collapse return None in the code and are not modelled."
  },
  {
   "property": "C254",
   "status": "proved",
   "theorems": [
    "C254_flexibility",
    "C254_stiffer",
    "C254_few_edge_fasteners",
    "C254_narrow_roof_refuted"
   ],
   "note": "The finding of the statement is C254_narrow_roof_refuted."
  },
  {
   "property": "C255",
   "status": "proved",
   "theorems": [
    "C255_bending_and_shear",
    "C255_spa_panel",
    "C255_face_hole",
    "C255_face_hole_thicker",
    "C255_screw_minimises",
    "C255_screw_stiffer",
    "C255_support",
    "C255_screw_shear",
    "C255_catalogue_stiffness"
   ],
   "note": "All clauses. ruukki_panel raises for other names; default list of screw distances is shared (not modelled)."
  },
  {
   "property": "C256",
   "status": "proved",
   "theorems": [
    "C256_layer_stiffness",
    "C256_layers_from_lists",
    "C256_shared_layers",
    "C256_symmetric_centroid",
    "C256_unsymmetric_refuted",
    "C256_metre_strip"
   ],
   "note": "The findings of the statement are C256_shared_layers and C256_unsymmetric_refuted; EIy of the slab returns None and Ay/Az raise in the code."
  },
  {
   "property": "C257",
   "status": "proved",
   "theorems": [
    "C257_feasible_iff_plastic",
    "C257_every_plastic_design",
    "C257_optimum_is_lightest"
   ],
   "note": "All clauses. The default stress limits of truss_lp read an undefined name and raise; the model takes the limits as given."
  },
  {
   "property": "C258",
   "status": "proved",
   "theorems": [
    "C258_sound",
    "C258_complete",
    "C258_optimum_is_lightest",
    "C258_member_forces",
    "C258_load_cases_must_agree",
    "C258_several_load_cases_refuted",
    "C258_later_cases_unloaded_refuted"
   ],
   "note": "One load case: sound, complete and optimal. The findings of the statement are C258_several_load_cases_refuted and C258_later_cases_unloaded_refuted. The class TrussMILP in truss_milp.py uses a name its import does not provide and is not modelled."
  },
  {
   "property": "C259",
   "status": "proved",
   "theorems": [
    "C259_entries",
    "C259_elongation",
    "C259_stiffness"
   ],
   "note": "All clauses."
  },
  {
   "property": "C260",
   "status": "proved",
   "theorems": [
    "C260_stress",
    "C260_strength",
    "C260_buckling",
    "C260_displacement_upper",
    "C260_displacement_lower",
    "C260_other_axis_refuted",
    "C260_later_load_case_refuted"
   ],
   "note": "Equivalences; the findings of the statement are C260_other_axis_refuted and C260_later_load_case_refuted."
  },
  {
   "property": "C261",
   "status": "proved",
   "theorems": [
    "C261_least_factor",
    "C261_response",
    "C261_constraints",
    "C261_negative_bound_refuted"
   ],
   "note": "All clauses; the finding of the statement is C261_negative_bound_refuted."
  },
  {
   "property": "C262",
   "status": "partial",
   "theorems": [
    "C262_last_case_last_member",
    "C262_fully_stressed_partial",
    "C262_load_cases_refuted",
    "C262_groups_refuted"
   ],
   "note": "Statically determinate trusses; for others the iteration is modelled but no convergence is claimed. Findings are theorems."
  },
  {
   "property": "C263",
   "status": "proved",
   "theorems": [
    "C263_member_frame",
    "C263_shape",
    "C263_angle"
   ],
   "note": "exact reals; np.float quirks of vertical members (numpy division) not modelled"
  },
  {
   "property": "C264",
   "status": "proved",
   "theorems": [
    "C264_intersection"
   ],
   "note": ""
  },
  {
   "property": "C265",
   "status": "partial",
   "theorems": [
    "C265_point_on_member",
    "C265_added_node",
    "C265_crossing_partial",
    "C265_crossing_refuted"
   ],
   "note": "crossing nodes proved for crossings with at most five decimals; C265_crossing_refuted shows a lost node otherwise"
  },
  {
   "property": "C266",
   "status": "proved",
   "theorems": [
    "C266_nodes",
    "C266_spacing",
    "C266_equal_spacing_refuted"
   ],
   "note": "The unequal spacing of the statement is C266_equal_spacing_refuted."
  },
  {
   "property": "C267",
   "status": "proved",
   "theorems": [
    "C267_shared_nodes",
    "C267_end_nodes",
    "C267_end_node_refuted",
    "C267_rounding",
    "C267_nodes_of_member"
   ],
   "note": "The missing n2 of the statement is C267_end_node_refuted and the last clause of C267_end_nodes."
  },
  {
   "property": "C268",
   "status": "partial",
   "theorems": [
    "C268_elements_partial",
    "C268_bar_refuted"
   ],
   "note": "bars with inner nodes end at their second node (C268_bar_refuted); hinge releases not modelled"
  },
  {
   "property": "C269",
   "status": "partial",
   "theorems": [
    "C269_max_force",
    "C269_max_displacement",
    "C269_absmax_value_partial",
    "C269_jump_refuted",
    "C269_sections_partial",
    "C269_sections_refuted",
    "C269_nodal_values"
   ],
   "note": "complete without force jumps at inner nodes; C269_jump_refuted and C269_sections_refuted otherwise"
  },
  {
   "property": "C270",
   "status": "partial",
   "theorems": [
    "C270_line_values",
    "C270_line_total_partial",
    "C270_line_uniform",
    "C270_line_total_refuted",
    "C270_line_factor_refuted",
    "C270_point_load",
    "C270_point_load_refuted"
   ],
   "note": "resultant proved for equal element lengths or uniform loads; refuted for unequal lengths; the load factor and point loads with more than three decimals are ignored"
  },
  {
   "property": "C271",
   "status": "proved",
   "theorems": [
    "C271_columns",
    "C271_beams",
    "C271_extent"
   ],
   "note": ""
  },
  {
   "property": "C272",
   "status": "partial",
   "theorems": [
    "C272_stored_stiffness",
    "C272_round_trip_partial",
    "C272_hinge_refuted"
   ],
   "note": "round trip fails at the cut-off (C272_hinge_refuted)"
  },
  {
   "property": "C273",
   "status": "partial",
   "theorems": [
    "C273_first_sufficient",
    "C273_optimum",
    "C273_sweeps",
    "C273_fixpoint_partial",
    "C273_fixpoint_refuted"
   ],
   "note": "fixed point proved for one member, refuted for several"
  },
  {
   "property": "C274",
   "status": "partial",
   "theorems": [
    "C274_location_partial",
    "C274_clamp",
    "C274_self_assignment_refuted",
    "C274_y_adjust",
    "C274_y_adjust_refuted"
   ],
   "note": "Reversed joints: C274_self_assignment_refuted and C274_y_adjust_refuted; the update of node coordinates is not part of the model of the setter."
  },
  {
   "property": "C275",
   "status": "partial",
   "theorems": [
    "C275_angle_partial",
    "C275_angle_refuted"
   ],
   "note": "Exact for horizontal chords and for inclinations up to 90 degrees; C275_angle_refuted for the others."
  },
  {
   "property": "C276",
   "status": "proved",
   "theorems": [
    "C276_relation",
    "C276_last_written",
    "C276_constructor_gap_refuted"
   ],
   "note": "The setter of e also moves the joint; only its effect on e and g is modelled."
  },
  {
   "property": "C277",
   "status": "proved",
   "theorems": [
    "C277_nodes",
    "C277_gap",
    "C277_shift"
   ],
   "note": ""
  },
  {
   "property": "C278",
   "status": "proved",
   "theorems": [
    "C278_y_joint",
    "C278_k_joint"
   ],
   "note": ""
  },
  {
   "property": "C279",
   "status": "partial",
   "theorems": [
    "C279_y_joint",
    "C279_y_joint_refuted",
    "C279_k_joint_partial",
    "C279_k_joint_swapped",
    "C279_k_joint_refuted"
   ],
   "note": "K joints: correct for webs added from left to right, refuted otherwise; chord shear is not modelled (N0 and V0 are methods there, so the constraint raises)."
  },
  {
   "property": "C280",
   "status": "partial",
   "theorems": [
    "C280_sections",
    "C280_nodes_partial",
    "C280_last_node_refuted",
    "C280_buckling",
    "C280_lateral_partial",
    "C280_hogging_refuted",
    "C280_deflection",
    "C280_deflection_off",
    "C280_classes"
   ],
   "note": "Last node and hogging moments refuted."
  },
  {
   "property": "C281",
   "status": "partial",
   "theorems": [
    "C281_single_removal_partial",
    "C281_half_stays_refuted",
    "C281_joint_copies_refuted"
   ],
   "note": "Complete removal only for a single constraint; refuted otherwise."
  },
  {
   "property": "C282",
   "status": "proved",
   "theorems": [
    "C282_default_refuted",
    "C282_count",
    "C282_multi",
    "C282_split_complete",
    "C282_split_mixed_refuted"
   ],
   "note": "The failing default and the mixed sizes of the statement are C282_default_refuted and C282_split_mixed_refuted."
  },
  {
   "property": "C283",
   "status": "proved",
   "theorems": [
    "C283_equilibrium",
    "C283_bolt_shear"
   ],
   "note": ""
  },
  {
   "property": "C284",
   "status": "proved",
   "theorems": [
    "C284_plate_bearing",
    "C284_web_bearing"
   ],
   "note": "Web bearing uses the vertical edge distance of the plate, not of the beam; the statement is for the bearing resistances the code computes."
  },
  {
   "property": "C285",
   "status": "proved",
   "theorems": [
    "C285_block_tearing_plate",
    "C285_block_tearing_web",
    "C285_block_tearing_refuted",
    "C285_shear",
    "C285_bending",
    "C285_lateral"
   ],
   "note": "The excess of the statement is C285_block_tearing_refuted."
  },
  {
   "property": "C286",
   "status": "proved",
   "theorems": [
    "C286_symmetric",
    "C286_edges",
    "C286_positions",
    "C286_beam_edge_refuted"
   ],
   "note": "The unchecked beam edge distance is C286_beam_edge_refuted."
  },
  {
   "property": "C287",
   "status": "proved",
   "theorems": [
    "C287_row_group_limits",
    "C287_forces"
   ],
   "note": "groups with row numbers in range; the sums of forces hold for any groups without repeated rows"
  },
  {
   "property": "C288",
   "status": "proved",
   "theorems": [
    "C288_greedy_optimal",
    "C288_group_order_refuted"
   ],
   "note": "nested groups listed by size, and the counterexample for another order; groups that do not start at the top row are outside the statement"
  },
  {
   "property": "C289",
   "status": "proved",
   "theorems": [
    "C289_shear_rows_refuted"
   ],
   "note": "the statement includes the deviation, whose exact value is proved"
  },
  {
   "property": "C290",
   "status": "proved",
   "theorems": [
    "C290_web_panel",
    "C290_stiffened_web_panel_refuted"
   ],
   "note": "the statement includes the deviation for strong stiffeners"
  },
  {
   "property": "C291",
   "status": "partial",
   "theorems": [
    "C291_compression_partial",
    "C291_stiffened_raises_refuted",
    "C291_stiffener_dimensions_refuted"
   ],
   "note": "minimum of the three components without stiffener; refuted with a stiffener; the effect of exchanged dimensions is proved for stocky stiffeners (no buckling reduction on either side)"
  },
  {
   "property": "C292",
   "status": "proved",
   "theorems": [
    "C292_equivalent_row",
    "C292_initial_stiffness",
    "C292_one_row_refuted"
   ],
   "note": "statement includes the failing case of one tension row"
  },
  {
   "property": "C293",
   "status": "proved",
   "theorems": [
    "C293_stiffness",
    "C293_moment_unit_refuted"
   ],
   "note": "the statement includes the deviation for moments in Nmm"
  },
  {
   "property": "C294",
   "status": "proved",
   "theorems": [
    "C294_before_refuted",
    "C294_after",
    "C294_bearing_refuted",
    "C294_interaction_refuted"
   ],
   "note": "the statement includes the order of reads, bearing and interaction findings"
  },
  {
   "property": "C295",
   "status": "proved",
   "theorems": [
    "C295_new_geometry",
    "C295_plate_height",
    "C295_bolt_distance",
    "C295_stale_refuted",
    "C295_lever"
   ],
   "note": "statement includes the stale attributes"
  },
  {
   "property": "C296",
   "status": "proved",
   "theorems": [
    "C296_notional_widths",
    "C296_sharp_widths",
    "C296_corner_offset",
    "C296_centre_line",
    "C296_default_radius",
    "C296_sharp_only_small_radius"
   ],
   "note": ""
  },
  {
   "property": "C297",
   "status": "proved",
   "theorems": [
    "C297_rounded_area",
    "C297_area_exact",
    "C297_area_close",
    "C297_short_lip_refuted"
   ],
   "note": "the statement includes the deviation for short lips"
  },
  {
   "property": "C298",
   "status": "proved",
   "theorems": [
    "C298_centroid_Z",
    "C298_centroid_C"
   ],
   "note": ""
  },
  {
   "property": "C299",
   "status": "proved",
   "theorems": [
    "C299_average_yield",
    "C299_range",
    "C299_corner_count_refuted",
    "C299_tension_resistance"
   ],
   "note": "the statement includes the fixed corner count"
  },
  {
   "property": "C300",
   "status": "partial",
   "theorems": [
    "C300_web_slenderness_value",
    "C300_web_slenderness_partial",
    "C300_slender_Z_refuted",
    "C300_stocky_Z_refuted"
   ],
   "note": "web threshold and factor proved; the effective section itself is refuted for slender and for stocky Z sections"
  },
  {
   "property": "C301",
   "status": "partial",
   "theorems": [
    "C301_plain_effective_area_partial",
    "C301_lipped_effective_area_refuted"
   ],
   "note": "C sections without lips proved up to the bottom flange, which the code does not reduce; the removed length with two lips and the bottom lip are refuted with exact values; one lip is not covered"
  },
  {
   "property": "C302",
   "status": "proved",
   "theorems": [
    "C302_bounds",
    "C302_slenderness_monotone",
    "C302_outstand_factor",
    "C302_plain_C_bottom_flange_refuted"
   ],
   "note": "the statement includes the ignored bottom flange"
  },
  {
   "property": "C303",
   "status": "proved",
   "theorems": [
    "C303_edge_stiffness",
    "C303_stiffness_monotone",
    "C303_distortional"
   ],
   "note": ""
  },
  {
   "property": "C304",
   "status": "proved",
   "theorems": [
    "C304_kh_Z",
    "C304_default_spring",
    "C304_bending_spring",
    "C304_springs_in_series",
    "C304_gravity_is_uplift_refuted",
    "C304_standard_z",
    "C304_standard_gap_refuted"
   ],
   "note": "the statement includes the load and table findings"
  },
  {
   "property": "C305",
   "status": "proved",
   "theorems": [
    "C305_name_read",
    "C305_single_figure_thickness_refuted",
    "C305_second_decimal_lost_refuted",
    "C305_third_decimal_refuted"
   ],
   "note": "RHS names read exactly; single-figure thickness raises, second decimal dropped, three decimals misread (findings)."
  },
  {
   "property": "C306",
   "status": "proved",
   "theorems": [
    "C306_ipe_name",
    "C306_hea_name",
    "C306_heb_name",
    "C306_other_h_raises",
    "C306_other_family_raises"
   ],
   "note": "IPE/HEA/HEB names for all numbers; HEB falls back to formulas; everything else raises."
  },
  {
   "property": "C307",
   "status": "proved",
   "theorems": [
    "C307_ipe_list_made",
    "C307_hea_list_made",
    "C307_heb_list_made",
    "C307_rhs_list_made",
    "C307_lists_made",
    "C307_square_list_refuted",
    "C307_circular_list_refuted"
   ],
   "note": "All list names; SHS, CHS and most H names cannot be made (findings)."
  },
  {
   "property": "C308",
   "status": "proved",
   "theorems": [
    "C308_formula_valid",
    "C308_formula_monotone",
    "C308_area_monotone",
    "C308_width_drop_refuted",
    "C308_accuracy",
    "C308_ipe_radius_refuted"
   ],
   "note": "Valid, monotone, accurate fits; HEM width drop and IPE radius (findings)."
  },
  {
   "property": "C309",
   "status": "proved",
   "theorems": [
    "C309_catalogue_true",
    "C309_catalogue_false",
    "C309_height"
   ],
   "note": "Meaning of the catalogue argument, families' heights."
  },
  {
   "property": "C310",
   "status": "proved",
   "theorems": [
    "C310_circular_names",
    "C310_square_names",
    "C310_rectangular_names",
    "C310_names_once",
    "C310_tables",
    "C310_family_lists",
    "C310_valid",
    "C310_tubes",
    "C310_square_round",
    "C310_sorted",
    "C310_isections",
    "C310_isections_names",
    "C310_profile_data_refuted"
   ],
   "note": "Agreement, validity, order of tables; shifted IPE 750 entry (finding)."
  },
  {
   "property": "C311",
   "status": "proved",
   "theorems": [
    "C311_same_formulas",
    "C311_same_torsion",
    "C311_area_perimeter",
    "C311_units",
    "C311_moduli_y",
    "C311_moduli_z",
    "C311_shear",
    "C311_gyration"
   ],
   "note": "Agreement of the two implementations, units, bounds; short painted perimeter (finding)."
  },
  {
   "property": "C312",
   "status": "proved",
   "theorems": [
    "C312_agree",
    "C312_values",
    "C312_ductility_refuted",
    "C312_stainless_modulus_refuted"
   ],
   "note": "Agreement of material tables; ductility of S700 and stainless modulus (findings)."
  },
  {
   "property": "C313",
   "status": "proved",
   "theorems": [
    "C313_geometry",
    "C313_no_panels"
   ],
   "note": "Positions and members of every truss size; zero panels raise."
  },
  {
   "property": "C314",
   "status": "proved",
   "theorems": [
    "C314_stable"
   ],
   "note": "All displacement and rotation fields, all numbers of panels."
  },
  {
   "property": "C315",
   "status": "proved",
   "theorems": [
    "C315_joints"
   ],
   "note": "Joint angles not modelled."
  },
  {
   "property": "C316",
   "status": "proved",
   "theorems": [
    "C316_weight"
   ],
   "note": "Closed form for all sizes."
  },
  {
   "property": "C317",
   "status": "proved",
   "theorems": [
    "C317_no_load_lost",
    "C317_total"
   ],
   "note": "Every history of calls; p[0] is ignored on the bottom chord (as stated)."
  },
  {
   "property": "C318",
   "status": "partial",
   "theorems": [
    "C318_applied_partial",
    "C318_once_refuted"
   ],
   "note": "Refuted as intended: the first truss call of each load id is applied twice. Exact multiset of applied loads proved for every history."
  },
  {
   "property": "C319",
   "status": "partial",
   "theorems": [
    "C319_column_first_raises",
    "C319_orderly_runs_partial"
   ],
   "note": "Refuted as intended: a column load first raises. Converse (orderly histories never raise) proved."
  },
  {
   "property": "C320",
   "status": "proved",
   "theorems": [
    "C320_ridge"
   ],
   "note": "All three ways to give the shape."
  },
  {
   "property": "C321",
   "status": "partial",
   "theorems": [
    "C321_face_partial",
    "C321_new_node",
    "C321_falling_refuted",
    "C321_distance_refuted"
   ],
   "note": "Proved for chords that rise from the column; refuted for falling chords and for the first position of the brace node."
  },
  {
   "property": "C322",
   "status": "proved",
   "theorems": [
    "C322_position",
    "C322_no_other_variables",
    "C322_number",
    "C322_starts",
    "C322_profiles",
    "C322_elongation_range",
    "C322_binary"
   ],
   "note": "All sizes, groups and member profile lists."
  },
  {
   "property": "C323",
   "status": "proved",
   "theorems": [
    "C323_sound",
    "C323_complete",
    "C323_optimum_is_lightest"
   ],
   "note": "One load case, as stated; the effect of the scaling factors on the limits is C324."
  },
  {
   "property": "C324",
   "status": "partial",
   "theorems": [
    "C324_unscaled_partial",
    "C324_scaling_refuted",
    "C324_positive_lower_bound",
    "C324_default_bounds_refuted"
   ],
   "note": "Proved for factors 1; refuted for other factors (displacement bounds not scaled, tension resistance scaled by su squared) and for the default lower bound."
  },
  {
   "property": "C325",
   "status": "partial",
   "theorems": [
    "C325_load_cases_must_agree",
    "C325_strength_of_every_load_case_partial",
    "C325_second_load_case_refuted"
   ],
   "note": "Resistances proved for every case; equilibrium and compatibility of later cases refuted."
  },
  {
   "property": "C326",
   "status": "partial",
   "theorems": [
    "C326_topology_exactly_partial",
    "C326_topology_rules",
    "C326_member_without_node_refuted",
    "C326_member_left_out_refuted"
   ],
   "note": "Exact characterisation proved; the rule between members and nodes is refuted in both directions."
  },
  {
   "property": "C327",
   "status": "proved",
   "theorems": [
    "C327_groups_in_topology",
    "C327_groups_in_sizing_refuted"
   ],
   "note": "The weaker meaning of groups in the sizing problem is C327_groups_in_sizing_refuted."
  },
  {
   "property": "C328",
   "status": "partial",
   "theorems": [
    "C328_sagging_partial",
    "C328_hogging_ratio",
    "C328_zero_stress",
    "C328_hogging_refuted"
   ],
   "note": "Proved for moments that compress the top flange; for moments of the other sign the code divides the edge stresses the other way round, so the ratio is the reciprocal (C328_hogging_ratio) and a class 4 web is reported as class 3 (C328_hogging_refuted)."
  },
  {
   "property": "C329",
   "status": "partial",
   "theorems": [
    "C329_order_partial",
    "C329_more_compression_partial",
    "C329_refuted"
   ],
   "note": "Proved for moments that compress the top flange; refuted for the other sign: adding compression improves the class (C329_refuted)."
  },
  {
   "property": "C330",
   "status": "partial",
   "theorems": [
    "C330_states_partial",
    "C330_refuted"
   ],
   "note": "Pure compression and pure bending proved; under both the web is always class 2, so a web that is class 4 in compression and in bending is reported as class 2 (C330_refuted)."
  },
  {
   "property": "C331",
   "status": "partial",
   "theorems": [
    "C331_states_partial",
    "C331_raises_exactly",
    "C331_refuted"
   ],
   "note": "Pure states and tension proved; under compression and bending the call raises, and exactly then (C331_raises_exactly)."
  },
  {
   "property": "C332",
   "status": "partial",
   "theorems": [
    "C332_compression_partial",
    "C332_compression_refuted",
    "C332_bending_partial",
    "C332_bending_refuted"
   ],
   "note": "Pure compression looks at the top flange only, which is right when it is the more slender one and refuted otherwise; in bending the share of the web is divided by the height less 2 sqrt 2 without the throat, which is right for throat 1, never stricter for larger throats, and refuted for throat 5."
  },
  {
   "property": "C333",
   "status": "partial",
   "theorems": [
    "C333_welded_partial",
    "C333_wrong_way",
    "C333_refuted",
    "C333_wq"
   ],
   "note": "The share used is a half less the compression ratio instead of a half more, so compression improves the class (C333_wrong_way), refuted by a section that is class 4 in compression, 3 in bending and 1 under both."
  },
  {
   "property": "C334",
   "status": "partial",
   "theorems": [
    "C334_compression",
    "C334_bending_partial",
    "C334_bending_refuted"
   ],
   "note": "Compression proved; in bending the negative of the stress ratio is used, so the class is never better than that of the table, and equality is refuted."
  },
  {
   "property": "C335",
   "status": "proved",
   "theorems": [
    "C335_flexural",
    "C335_lateral",
    "C335_compressed_flange"
   ],
   "note": "The code treats every yield strength above 420 as S460; deep sections with flanges above 100 mm are outside the table."
  },
  {
   "property": "C336",
   "status": "proved",
   "theorems": [
    "C336_second_moment",
    "C336_moduli",
    "C336_by_class"
   ],
   "note": "For a section whose effective parts have not been changed by an earlier call."
  },
  {
   "property": "C337",
   "status": "partial",
   "theorems": [
    "C337_value",
    "C337_stocky",
    "C337_monotone_partial",
    "C337_web",
    "C337_raises_exactly",
    "C337_cap_refuted",
    "C337_axial_refuted"
   ],
   "note": "Value, lower bound, monotonicity and domain proved while the axial force stays below the squash load of the flanges; above it a resistance is returned although a smaller force raises (C337_axial_refuted), and the cap of 5.2(1) is exceeded with close stiffeners (C337_cap_refuted)."
  },
  {
   "property": "C338",
   "status": "proved",
   "theorems": [
    "C338_sound",
    "C338_exact",
    "C338_mutual",
    "C338_left_out",
    "C338_tolerance_refuted"
   ],
   "note": "Pairing is not mutual when node distances form a chain within the tolerance (C338_tolerance_refuted)."
  },
  {
   "property": "C339",
   "status": "proved",
   "theorems": [
    "C339_default_axis",
    "C339_default_pairs",
    "C339_again",
    "C339_kept",
    "C339_moved_refuted"
   ],
   "note": "Detection reuses old pairs: C339_moved_refuted shows a stale pair after a node was moved."
  },
  {
   "property": "C340",
   "status": "proved",
   "theorems": [
    "C340_exact",
    "C340_mutual",
    "C340_frame",
    "C340_parallel_refuted"
   ],
   "note": "Parallel members between the same nodes break mutuality (C340_parallel_refuted)."
  },
  {
   "property": "C341",
   "status": "proved",
   "theorems": [
    "C341_last_given",
    "C341_pairs_equal",
    "C341_sweep",
    "C341_spans_refuted",
    "C341_mixed_refuted"
   ],
   "note": "Proved for single-span members; multi-span members do not share profiles (C341_spans_refuted) and a mixed pair raises (C341_mixed_refuted), as the statement says."
  },
  {
   "property": "C342",
   "status": "proved",
   "theorems": [
    "C342_never_longer",
    "C342_straight",
    "C342_local_point",
    "C342_back",
    "C342_nodes",
    "C342_weight",
    "C342_bent_refuted"
   ],
   "note": "Straight members; C342_bent_refuted shows length, weight and points of a bent member."
  },
  {
   "property": "C343",
   "status": "proved",
   "theorems": [
    "C343_first",
    "C343_no_slenderness",
    "C343_spans_argument",
    "C343_spans_as_group",
    "C343_check",
    "C343_same_section",
    "C343_slender_refuted"
   ],
   "note": "The limit of slenderness has no effect (C343_no_slenderness, C343_slender_refuted)."
  },
  {
   "property": "C344",
   "status": "proved",
   "theorems": [
    "C344_nodes",
    "C344_members",
    "C344_fe_node",
    "C344_no_fe_node",
    "C344_whole_numbers",
    "C344_whole_numbers_refuted"
   ],
   "note": "Truncation of nodes with whole-number coordinates: C344_whole_numbers_refuted, C344_whole_numbers."
  },
  {
   "property": "C345",
   "status": "proved",
   "theorems": [
    "C345_acute",
    "C345_reversed",
    "C345_value",
    "C345_direction",
    "C345_chord_angle",
    "C345_face_point"
   ],
   "note": "Exact reals; joints not at the ridge for the face point."
  },
  {
   "property": "C346",
   "status": "proved",
   "theorems": [
    "C346_gap",
    "C346_eccentricity",
    "C346_grows",
    "C346_same_side_refuted"
   ],
   "note": "Both clauses for the side of the braces in C346_gap; instance of the second in C346_same_side_refuted."
  },
  {
   "property": "C347",
   "status": "proved",
   "theorems": [
    "C347_ridge",
    "C347_frame",
    "C347_point",
    "C347_created",
    "C347_mirrored",
    "C347_ridge_refuted",
    "C347_ridge_face",
    "C347_ridge_face_refuted"
   ],
   "note": "The ridge exceptions are C347_ridge_refuted, C347_ridge_face and C347_ridge_face_refuted."
  },
  {
   "property": "C348",
   "status": "proved",
   "theorems": [
    "C348_exact",
    "C348_mutual",
    "C348_two_joints_refuted"
   ],
   "note": "The exception with two joints at a node is C348_two_joints_refuted."
  },
  {
   "property": "C349",
   "status": "proved",
   "theorems": [
    "C349_chord_force",
    "C349_stress_underestimated",
    "C349_moment_left_out",
    "C349_gap_shear",
    "C349_shear",
    "C349_y_design",
    "C349_y_ignores_chord",
    "C349_y_high_grade",
    "C349_shear_refuted"
   ],
   "note": "The overlooked negative shear is C349_shear_refuted; the rest by the general theorems."
  },
  {
   "property": "C350",
   "status": "proved",
   "theorems": [
    "C350_weld_length"
   ],
   "note": "Exact reals."
  },
  {
   "property": "C351",
   "status": "proved",
   "theorems": [
    "C351_gap_limits",
    "C351_gap_possible",
    "C351_real_gap",
    "C351_variables",
    "C351_start",
    "C351_one_per_coordinate",
    "C351_gradient",
    "C351_zero",
    "C351_point",
    "C351_vertical",
    "C351_ridge_refuted"
   ],
   "note": "The ridge exception is C351_ridge_refuted. The solver is not modelled."
  },
  {
   "property": "C352",
   "status": "proved",
   "theorems": [
    "C352_factor",
    "C352_value",
    "C352_raises",
    "C352_against_standard",
    "C352_monotone",
    "C352_unsafe_refuted",
    "C352_stud_25_refuted",
    "C352_catalogue"
   ],
   "note": "The value above the standard is C352_against_standard and C352_unsafe_refuted; stud 25 is C352_stud_25_refuted."
  },
  {
   "property": "C353",
   "status": "proved",
   "theorems": [
    "C353_values",
    "C353_grows",
    "C353_tangent_below",
    "C353_tangent_above",
    "C353_table",
    "C353_beyond_refuted",
    "C353_raises_beyond",
    "C353_hot_refuted",
    "C353_slope_refuted",
    "C353_gap_refuted"
   ],
   "note": "Exceptions: C353_beyond_refuted, C353_raises_beyond, C353_gap_refuted, C353_slope_refuted, C353_hot_refuted."
  },
  {
   "property": "C354",
   "status": "proved",
   "theorems": [
    "C354_winner",
    "C354_by_member",
    "C354_raises",
    "C354_no_loads",
    "C354_split_adds_up",
    "C354_split_defined",
    "C354_service_defined",
    "C354_permanent_defined",
    "C354_multi",
    "C354_uplift_refuted",
    "C354_accidental_uplift_refuted"
   ],
   "note": "The raising cases are C354_uplift_refuted and C354_accidental_uplift_refuted."
  },
  {
   "property": "C355",
   "status": "proved",
   "theorems": [
    "C355_genes",
    "C355_aligned",
    "C355_given_start",
    "C355_next_solve",
    "C355_new_size",
    "C355_new_members",
    "C355_new_values",
    "C355_choice",
    "C355_new_defined",
    "C355_two_parents",
    "C355_misaligned_refuted"
   ],
   "note": "The exception is C355_misaligned_refuted."
  },
  {
   "property": "C356",
   "status": "proved",
   "theorems": [
    "C356_gradient_affine",
    "C356_gradient_error",
    "C356_gradient_blind",
    "C356_objective",
    "C356_constraint_value",
    "C356_constraint_gradient",
    "C356_linear",
    "C356_linear_value",
    "C356_types",
    "C356_afterwards",
    "C356_afterwards_locked",
    "C356_structure_refuted",
    "C356_locked_refuted"
   ],
   "note": "Exceptions: C356_structure_refuted, C356_locked_refuted, C356_afterwards_locked."
  },
  {
   "property": "C357",
   "status": "proved",
   "theorems": [
    "C357_random_values",
    "C357_nearest",
    "C357_every_value",
    "C357_first_margin",
    "C357_point_continuous",
    "C357_point_discrete",
    "C357_less_constraints",
    "C357_other_constraints_refuted",
    "C357_endless_refuted"
   ],
   "note": "Exceptions: C357_other_constraints_refuted, C357_endless_refuted."
  },
  {
   "property": "C358",
   "status": "proved",
   "theorems": [
    "C358_unchanged",
    "C358_scale",
    "C358_entries",
    "C358_objective",
    "C358_origin_refuted",
    "C358_order_refuted"
   ],
   "note": "Exceptions: C358_origin_refuted, C358_order_refuted."
  },
  {
   "property": "C359",
   "status": "proved",
   "theorems": [
    "C359_at_most",
    "C359_early_return",
    "C359_returns",
    "C359_inertia",
    "C359_start",
    "C359_step",
    "C359_free_step",
    "C359_swarm_in_box",
    "C359_no_feasible_refuted",
    "C359_second_run_refuted"
   ],
   "note": "Exceptions: C359_no_feasible_refuted, C359_second_run_refuted."
  },
  {
   "property": "C360",
   "status": "proved",
   "theorems": [
    "C360_strength",
    "C360_longer",
    "C360_required_stiffness",
    "C360_stiffness_length"
   ],
   "note": "Partial safety factor is not applied by the code, as modelled; profiles need Aeff, I and imp_factor."
  },
  {
   "property": "C361",
   "status": "proved",
   "theorems": [
    "C361_horizontal_axis",
    "C361_least",
    "C361_vertical_axis",
    "C361_vertical_inertia",
    "C361_elastic_below",
    "C361_where",
    "C361_outline",
    "C361_heavy_flange_refuted"
   ],
   "note": "Exception: C361_heavy_flange_refuted."
  },
  {
   "property": "C362",
   "status": "proved",
   "theorems": [
    "C362_constructor",
    "C362_no_duplicates",
    "C362_add",
    "C362_free_or_locked",
    "C362_lock_unlock",
    "C362_replace",
    "C362_delete",
    "C362_constraints",
    "C362_type",
    "C362_constructor_constraints_refuted",
    "C362_own_variables_refuted",
    "C362_all_variables_refuted",
    "C362_add_variable_refuted",
    "C362_mixed_refuted"
   ],
   "note": "Exceptions: C362_constructor_constraints_refuted, C362_own_variables_refuted, C362_all_variables_refuted, C362_add_variable_refuted, C362_mixed_refuted."
  },
  {
   "property": "C363",
   "status": "proved",
   "theorems": [
    "C363_node",
    "C363_tightening",
    "C363_idempotent",
    "C363_locked_refuted"
   ],
   "note": "Exception: C363_locked_refuted. The solvers are parameters; exactness of the linear-programming solver is a hypothesis."
  },
  {
   "property": "C364",
   "status": "proved",
   "theorems": [
    "C364_flange",
    "C364_plate",
    "C364_history",
    "C364_defined",
    "C364_more_groups",
    "C364_adjacent_refuted"
   ],
   "note": "Exception: C364_adjacent_refuted."
  },
  {
   "property": "C365",
   "status": "proved",
   "theorems": [
    "C365_stress",
    "C365_stress_defined",
    "C365_radius",
    "C365_radius_defined",
    "C365_covered",
    "C365_sagging",
    "C365_hogging_refuted",
    "C365_about_z_refuted",
    "C365_alpha",
    "C365_alpha_defined"
   ],
   "note": "Exceptions: C365_hogging_refuted, C365_about_z_refuted."
  },
  {
   "property": "C366",
   "status": "proved",
   "theorems": [
    "C366_defined",
    "C366_total_area",
    "C366_one_zone_per_point",
    "C366_pressure",
    "C366_parapet_refuted",
    "C366_short_roof_refuted",
    "C366_small_zone_refuted"
   ],
   "note": "The findings of the statement are C366_parapet_refuted, C366_short_roof_refuted and C366_small_zone_refuted."
  },
  {
   "property": "C367",
   "status": "proved",
   "theorems": [
    "C367_feasible",
    "C367_clearances",
    "C367_substitution",
    "C367_second_substitution",
    "C367_top_edge_refuted",
    "C367_plate_width_refuted",
    "C367_edge_distance_refuted",
    "C367_flush_refuted"
   ],
   "note": "The findings of the statement are C367_top_edge_refuted, C367_plate_width_refuted, C367_edge_distance_refuted and C367_flush_refuted."
  },
  {
   "property": "C368",
   "status": "proved",
   "theorems": [
    "C368_bending_at_apex",
    "C368_bending_between",
    "C368_hogging_refuted",
    "C368_perpendicular_stress",
    "C368_perpendicular_check",
    "C368_two_loads_refuted",
    "C368_downward_load_refuted",
    "C368_combined",
    "C368_end_zone_refuted",
    "C368_end_shear_refuted",
    "C368_mirror_refuted"
   ],
   "note": "The findings of the statement are C368_hogging_refuted, C368_two_loads_refuted, C368_downward_load_refuted, C368_end_zone_refuted, C368_end_shear_refuted and C368_mirror_refuted."
  },
  {
   "property": "C369",
   "status": "proved",
   "theorems": [
    "C369_every_load_once",
    "C369_when_all",
    "C369_plain_loads",
    "C369_one_case",
    "C369_default_case",
    "C369_ids_agree",
    "C369_empty_case_refuted",
    "C369_shared_load_refuted",
    "C369_name_in_use_refuted",
    "C369_stale_model_refuted"
   ],
   "note": "The findings of the statement are C369_empty_case_refuted, C369_shared_load_refuted, C369_name_in_use_refuted and C369_stale_model_refuted."
  },
  {
   "property": "C370",
   "status": "proved",
   "theorems": [
    "C370_accepted_iff",
    "C370_values",
    "C370_no_options",
    "C370_options_in_force",
    "C370_options_reused_refuted",
    "C370_pinned_refuted",
    "C370_rigid_refuted",
    "C370_reversed_moment_refuted"
   ],
   "note": "The findings of the statement are C370_options_reused_refuted, C370_pinned_refuted, C370_rigid_refuted and C370_reversed_moment_refuted."
  },
  {
   "property": "C371",
   "status": "proved",
   "theorems": [
    "C371_utilisation",
    "C371_contacts",
    "C371_factor",
    "C371_distance",
    "C371_contact_stress",
    "C371_place_of_contact_refuted",
    "C371_end_contact_refuted",
    "C371_single_contact_refuted",
    "C371_order_refuted"
   ],
   "note": "The findings of the statement are C371_place_of_contact_refuted, C371_end_contact_refuted, C371_single_contact_refuted and C371_order_refuted."
  },
  {
   "property": "C372",
   "status": "proved",
   "theorems": [
    "C372_state_after_analysis",
    "C372_analysis_defined",
    "C372_later_analysis",
    "C372_full_load_coordinates_refuted",
    "C372_full_load_coordinates_iff",
    "C372_full_load_never_applied",
    "C372_mode_values",
    "C372_mode_shape",
    "C372_mode_rows",
    "C372_row_count",
    "C372_any_order_refuted"
   ],
   "note": "The findings of the statement are C372_full_load_coordinates_refuted, C372_full_load_never_applied and C372_any_order_refuted."
  },
  {
   "property": "C373",
   "status": "proved",
   "theorems": [
    "C373_nodes",
    "C373_elements",
    "C373_rows",
    "C373_sets",
    "C373_releases",
    "C373_hinge_exported_refuted",
    "C373_no_included_members",
    "C373_single_gap",
    "C373_plane_nodes",
    "C373_monitored",
    "C373_monitored_number_refuted",
    "C373_supports",
    "C373_support_codes",
    "C373_supports_refuted"
   ],
   "note": "The findings of the statement are C373_hinge_exported_refuted, C373_no_included_members, C373_single_gap, C373_monitored_number_refuted and C373_supports_refuted."
  },
  {
   "property": "C374",
   "status": "proved",
   "theorems": [
    "C374_closed",
    "C374_symmetric",
    "C374_on_midline",
    "C374_length",
    "C374_area",
    "C374_thick_walled_refuted"
   ],
   "note": "The finding of the statement is C374_thick_walled_refuted."
  },
  {
   "property": "C375",
   "status": "proved",
   "theorems": [
    "C375_refused",
    "C375_named_target",
    "C375_cross_section_value_refuted",
    "C375_continuous_change_refuted",
    "C375_discrete_change",
    "C375_plain_substitute",
    "C375_section_reached_refuted",
    "C375_substitute",
    "C375_others_untouched",
    "C375_locked",
    "C375_list_with_functions",
    "C375_unscaled_list_refuted"
   ],
   "note": "The findings of the statement are C375_cross_section_value_refuted, C375_continuous_change_refuted, C375_section_reached_refuted and C375_unscaled_list_refuted."
  },
  {
   "property": "C376",
   "status": "proved",
   "theorems": [
    "C376_listed",
    "C376_order",
    "C376_maximum",
    "C376_violated",
    "C376_greater_than_refuted",
    "C376_zero_refuted"
   ],
   "note": "The findings of the statement are C376_greater_than_refuted and C376_zero_refuted. The contract of numpy.argpartition is a hypothesis."
  },
  {
   "property": "C377",
   "status": "proved",
   "theorems": [
    "C377_start",
    "C377_nearest_start_refuted",
    "C377_iterations",
    "C377_limit_carried_over_refuted",
    "C377_solvers_refuted"
   ],
   "note": "The findings of the statement are C377_nearest_start_refuted, C377_limit_carried_over_refuted and C377_solvers_refuted. The solvers themselves are not modelled here."
  },
  {
   "property": "C378",
   "status": "proved",
   "theorems": [
    "C378_load_vector",
    "C378_other_elements_refuted",
    "C378_exists_iff",
    "C378_rod_loads",
    "C378_rod_direction_refuted"
   ],
   "note": "The findings of the statement are C378_other_elements_refuted and C378_rod_direction_refuted. The forces a plane beam computes are given here and modelled elsewhere."
  }
 ]
}