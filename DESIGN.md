# Formal model of kuisidu/metku in Rocq (Coq 8.16.1)

## How the model is built

* Source: `/repo/metku` at the pinned commit, read as text.  The code is never run.  Every Coq definition
  carries a comment with the Python file and lines it transcribes and, where it simplifies, what was simplified.
* Numbers.  Python floats are modelled by exact real numbers `R` (stdlib `Reals`), Python ints, indices and
  counters by `nat`/`Z`, strings by an enumerated type or `string`.  Rounding errors, `nan`, `inf` and overflow
  are therefore outside the model; explicit calls of `round(x, n)` in the code *are* modelled.
* Comparisons are `Rle_dec`/`Rlt_dec`, so every branch of the code is a branch of the model with the same
  strictness (`<` vs `<=`).  Exceptions are values (`option` / `None`, or an error constructor).
* Objects that are mutated become records threaded through functions; a history is a `list` of operations and
  properties of histories are inductions over that list.
* External code (numpy.linalg.solve, scipy/ortools/gurobi solvers, random generators, user-supplied callables)
  is a universally quantified function (a `Section` variable, discharged at section end, or an argument), with
  its contract stated as a hypothesis of the theorem using it.
* Files `theories/*_model.v` hold the models, `*_proofs.v` the proofs and `*_props.v` the property theorems
  and nothing else (each `Proof. exact lemma. Qed.` followed by `Print Assumptions`), with non-vacuity
  `Example`s beside them.
* A property which the code violates is kept at full strength in `properties.jsonl`; the theorem
  `..._refuted` exhibits the witness, and the strongest true restriction is proved beside it.

## Trusted base

* The kernel of Coq 8.16.1 (with its virtual machine, used by `vm_compute`), the `coqc` compiler and the standard library
  it comes with. No other library, no plugin, no axiom of our own, no kernel check switched off, no unfinished proof.
* The axioms of the standard library that `Print Assumptions` lists: those of the classical real numbers
  (`ClassicalDedekindReals.sig_forall_dec`, `ClassicalDedekindReals.sig_not_dec`), functional extensionality
  (`FunctionalExtensionality.functional_extensionality_dep`, used by the construction of the reals) and, where analysis
  is used, excluded middle (`Classical_Prop.classic`). Which theorem uses which is listed below.
* The transcription of the Python code into the `*_model.v` files. It was made by reading; the comments cite the lines so
  that it can be checked. It is tested by wrong programs (`seeded/LOG.jsonl`): edited models must break theorems.
* Real numbers for floating point numbers: a theorem about a comparison or an equation says nothing about rounding.
* The reading of the specifications (`*_spec.v`), which are small and separate from the models, and of the statements of
  the theorems in `*_props.v`.
* Behaviour of Python and of its libraries where the models describe it: order of evaluation, exceptions, aliasing,
  truth values, slices, `round`, `sorted`, `argsort`, numpy arrays. Contracts of solvers and random generators are
  hypotheses of the theorems.

Assumptions by theorem, as `Print Assumptions` lists them (it stands after every theorem in the sources):

* no assumptions (closed under the global context): 132 theorems: C373_elements, C373_rows, C373_sets, C373_releases, C373_no_included_members, C373_single_gap, C373_plane_nodes, C373_supports, C373_support_codes, C373_supports_refuted, C310_circular_names, C310_square_names, C310_rectangular_names, C305_name_read, C305_single_figure_thickness_refuted, C305_second_decimal_lost_refuted, C305_third_decimal_refuted, C306_ipe_name, C306_hea_name, C306_heb_name, C306_other_h_raises, C306_other_family_raises, C307_ipe_list_made, C307_hea_list_made, C307_heb_list_made, C307_rhs_list_made, C307_lists_made, C307_square_list_refuted, C307_circular_list_refuted, C310_names_once, C310_tables, C310_family_lists, C310_valid, C310_tubes, C310_square_round, C310_isections, C310_isections_names, C310_profile_data_refuted, C312_agree, C312_values, C312_ductility_refuted, C312_stainless_modulus_refuted, C370_options_in_force, C267_end_nodes, C268_elements_partial, C268_bar_refuted, C267_nodes_of_member, C38_removed, C34_numbering_bijection, C34_renumbering_stable, C38_default_method_raises, C90_unchanged_model_partial, C355_next_solve, C355_new_size, C355_new_members, C355_new_values, C355_choice, C355_new_defined, C355_two_parents, C219_continuous, C140_stock, C04_full_vector_unique, C13_kept_variables, C222_constructor, C222_constructor_list, C221_sweep, C221_fresh_members, C127_history_refuted, C79_nodes, C79_members, C79_node_twice, C123_mesh, C126_own_hinges_partial, C126_shared_hinges_refuted, C127_self_weight_refuted, C128_sweeps, C128_groups_refuted, C129_set_section, C129_make_group, C129_add_partial, C129_add_refuted, C362_constructor, C362_no_duplicates, C362_add, C362_free_or_locked, C362_lock_unlock, C362_replace, C362_delete, C362_constraints, C362_type, C362_constructor_constraints_refuted, C362_own_variables_refuted, C362_all_variables_refuted, C362_add_variable_refuted, C362_mixed_refuted, C67_axis_reads_raise, C252_table_shape, C252_deeper_is_softer, C256_shared_layers, C252_index_from_end, C372_row_count, C29_grid_is_the_product, C29_run_tries_each_combination_once, C29_problem_parameters_unused_refuted, C341_last_given, C341_pairs_equal, C341_sweep, C341_spans_refuted, C341_mixed_refuted, C340_exact, C340_mutual, C340_parallel_refuted, C186_generic, C187_assignment_partial, C187_generic_board, C348_exact, C348_mutual, C348_two_joints_refuted, C322_position, C322_no_other_variables, C322_number, C322_starts, C322_profiles, C371_contacts, C377_solvers_refuted, C281_single_removal_partial, C281_half_stays_refuted, C281_joint_copies_refuted, C282_default_refuted, C282_count, C282_multi, C282_split_complete.
* `ClassicalDedekindReals.sig_forall_dec`: 41 theorems: C373_hinge_exported_refuted, C356_afterwards_locked, C375_plain_substitute, C375_section_reached_refuted, C375_substitute, C375_others_untouched, C375_locked, C375_list_with_functions, C375_unscaled_list_refuted, C351_point, C378_other_elements_refuted, C269_sections_partial, C211_milp_variables, C211_milp_relaxation, C212_binary_refuted, C219_short_refuted, C217_step, C219_default_zero, C369_when_all, C369_one_case, C115_direction_z_refuted, C354_raises, C221_case_id, C221_empty_case, C78_loads_kept_partial, C78_loads_kept_refuted, C78_case_refuted, C78_ids_twice, C78_line_twice, C119_leading_case, C120_clear_partial, C259_entries, C256_layers_from_lists, C372_mode_values, C372_mode_shape, C372_mode_rows, C32_integer_values, C217_step_entry, C219_default_values, C347_frame, C347_point.
* `ClassicalDedekindReals.sig_forall_dec`, `FunctionalExtensionality.functional_extensionality_dep`: 878 theorems: all theorems not listed in the other items.
* `ClassicalDedekindReals.sig_forall_dec`, `ClassicalDedekindReals.sig_not_dec`, `FunctionalExtensionality.functional_extensionality_dep`: 378 theorems: C368_bending_at_apex, C368_bending_between, C368_hogging_refuted, C368_perpendicular_stress, C368_perpendicular_check, C368_downward_load_refuted, C368_combined, C368_end_zone_refuted, C368_end_shear_refuted, C368_mirror_refuted, C39_global_symmetric, C39_global_semidefinite, C39_global_rigid, C40_global_only_rigid, C41_orthogonal_partial, C41_length_preserved_partial, C41_energy_frame, C41_scale, C41_rounded_length_refuted, C42_global_load_partial, C92_symmetric, C311_same_formulas, C311_area_perimeter, C311_units, C360_strength, C360_longer, C360_required_stiffness, C360_stiffness_length, C297_rounded_area, C300_web_slenderness_value, C296_notional_widths, C296_sharp_widths, C296_corner_offset, C296_centre_line, C297_area_exact, C297_short_lip_refuted, C298_centroid_Z, C298_centroid_C, C299_average_yield, C299_range, C299_corner_count_refuted, C300_web_slenderness_partial, C300_slender_Z_refuted, C300_stocky_Z_refuted, C301_plain_effective_area_partial, C301_lipped_effective_area_refuted, C302_bounds, C302_slenderness_monotone, C302_outstand_factor, C303_distortional, C228_corner_partial, C228_notional_width, C228_one_corner_refuted, C229_critical_stress, C231_internal, C231_near_end, C231_opposite, C231_far, C231_internal_above_end, C231_monotone, C231_new_end, C231_forces_refuted, C231_negative_refuted, C232_alfa, C232_alfa_monotone, C232_bearing, C233_sheet_refuted, C233_sheet_partial, C244_weights, C247_core, C247_new_column, C247_weight, C220_plate_total, C138_plate_partial, C138_costing_again, C138_stale_weld_refuted, C184_resistances, C184_slenderness, C48_internal_compression, C48_outstand_compression, C48_internal_combined, C48_internal_tension, C48_monotone, C49_from_S235_partial, C49_yield_strength_argument_partial, C49_bending_and_tubes_all_grades_partial, C49_below_S235_refuted, C50_proper, C50_strength, C51_monotone, C51_strict, C100_range, C100_monotone, C378_rod_loads, C378_rod_direction_refuted, C290_web_panel, C290_stiffened_web_panel_refuted, C291_compression_partial, C291_stiffened_raises_refuted, C291_stiffener_dimensions_refuted, C292_initial_stiffness, C292_one_row_refuted, C367_feasible, C367_clearances, C367_substitution, C367_second_substitution, C367_top_edge_refuted, C367_plate_width_refuted, C367_edge_distance_refuted, C367_flush_refuted, C263_member_frame, C263_shape, C266_nodes, C283_bolt_shear, C284_plate_bearing, C284_web_bearing, C285_block_tearing_plate, C285_block_tearing_web, C285_block_tearing_refuted, C285_shear, C285_bending, C285_lateral, C60_law_values, C60_law_monotone, C60_law_continuous, C60_parameters, C60_stress, C60_1200_raises, C217_direction, C217_descent, C217_total, C217_failed_search, C218_run, C218_reuse_refuted, C217_stopping, C142_functions, C146_throat, C155_compression_value, C156_value, C159_measures, C159_stiffener, C140_length, C140_available, C141_set_size, C143_bearing_partial, C145_block_tearing, C146_full_strength, C152_plate_order_refuted, C154_omega_partial, C154_omega_refuted, C155_compression, C155_tension, C155_shear, C156_stiffened, C159_geometry, C208_charring_rate, C208_charring_rate_lvl, C208_charring_rate_unknown, C118_panel_partial, C118_panel_refuted, C174_torsion_partial, C175_lateral_torsional, C176_mono_load_level_refuted, C180_value, C182_history_partial, C02_locked_variable_never_moves, C02_locked_variable_safe_through_problem, C04_constraint_sees_full_vector, C04_unvalued_lock_refuted, C07_linear_constraint_affine, C07_out_of_bounds_refuted, C07_index_variable_always_raises, C84_constraint_analysis_is_fresh, C85_linearize_fresh_without_gradient_partial, C85_linearize_stale_refuted, C99_end_range, C99_end_bearing_refuted, C55_internal_reduction, C55_internal_monotone, C97_defined, C97_thickness, C97_width, C98_resistance, C98_thickness, C99_range_partial, C99_bearing_length_partial, C316_weight, C13_locked_variable_always_raises, C223_centroid, C223_moments, C223_shear_centre, C223_warping, C223_torsion, C223_backwards, C224_split, C224_torsion_refuted, C225_pole, C225_unique, C225_minimal, C226_shear_centre, C226_centroid, C226_mirrored, C226_determinant, C227_scaled, C227_shear_centre, C227_units_refuted, C227_torsion, C227_torsion_modulus, C121_direction_unit, C121_local_global, C121_nodes, C121_element_length, C121_perpendicular, C374_closed, C374_symmetric, C374_on_midline, C374_length, C374_thick_walled_refuted, C161_distance_partial, C161_distance_refuted, C161_through_points, C161_rotate, C162_of_joint, C166_shear_area, C166_shear_area_gap, C167_compression_partial, C167_gap_force_refuted, C170_new_joint_refuted, C170_slenderness_squared, C358_unchanged, C358_scale, C358_entries, C358_origin_refuted, C358_order_refuted, C328_sagging_partial, C328_zero_stress, C328_hogging_refuted, C329_order_partial, C329_more_compression_partial, C329_refuted, C330_states_partial, C330_refuted, C331_states_partial, C331_raises_exactly, C331_refuted, C332_compression_partial, C332_compression_refuted, C332_bending_partial, C332_bending_refuted, C333_welded_partial, C333_wrong_way, C333_refuted, C333_wq, C334_compression, C334_bending_partial, C334_bending_refuted, C336_second_moment, C336_moduli, C336_by_class, C337_value, C337_stocky, C337_monotone_partial, C337_web, C337_raises_exactly, C337_cap_refuted, C337_axial_refuted, C104_exact_value, C104_first_read_refuted, C242_area, C242_plastic, C243_tubes, C63_rhs_history, C64_area_of_ring, C64_second_moment_of_ring, C64_plastic_modulus_of_ring, C66_rolled_i, C104_class3_effective_area_refuted, C106_rhs_partial, C106_rolled_i_refuted, C112_square_partial, C112_edit_refuted, C252_table_entry, C252_range, C252_outside, C252_narrow_flange_refuted, C253_fastener, C253_seam, C253_seam_spacing, C253_sheet_to_rafter, C253_wide_spacing_refuted, C254_flexibility, C254_stiffer, C254_few_edge_fasteners, C254_narrow_roof_refuted, C255_face_hole, C255_face_hole_thicker, C255_support, C255_screw_shear, C253_eccs_fastener, C253_eccs_end_fastener, C253_eccs_other_diameter, C253_en_fastener, C25_stopping, C25_returns_best_feasible_iterate, C25_run_is_total, C25_better_start_lost_refuted, C25_reused_solver_refuted, C31_wrong_centre_refuted, C352_value, C352_raises, C352_monotone, C352_stud_25_refuted, C342_never_longer, C342_straight, C342_local_point, C342_back, C342_weight, C342_bent_refuted, C343_same_section, C344_nodes, C344_members, C344_fe_node, C344_no_fe_node, C344_whole_numbers_refuted, C186_charring_rate, C186_hardwood_refuted, C187_gypsum, C193_factor, C193_length, C194_critical_stress, C194_negative_length_refuted, C200_k_p, C200_k_m_alpha, C200_k_l_partial, C200_k_l_refuted, C200_k_m_alpha_refuted, C202_bracing_partial, C202_bracing_refuted, C186_notional_rate, C345_direction, C345_face_point, C346_eccentricity, C346_grows, C347_ridge, C349_moment_left_out, C349_gap_shear, C349_shear_refuted, C350_weld_length, C371_utilisation, C371_distance, C371_single_contact_refuted, C371_order_refuted, C234_counts, C234_no_duplicates, C235_stable_partial, C235_open_ends_refuted, C236_geometry, C236_ridge_place_refuted, C236_one_panel_refuted, C237_offset_start, C237_N, C237_KT, C237_K_refuted, C238_joints, C239_ridge_joint, C241_negative_height_refuted, C365_radius, C365_radius_defined, C365_covered, C275_angle_partial, C275_angle_refuted, C276_relation, C276_constructor_gap_refuted, C277_nodes, C277_gap, C277_shift, C278_y_joint, C278_k_joint.
* `ClassicalDedekindReals.sig_forall_dec`, `ClassicalDedekindReals.sig_not_dec`, `Classical_Prop.classic`, `FunctionalExtensionality.functional_extensionality_dep`: 172 theorems: C356_gradient_error, C42_integral_unique, C42_3d_local_z_refuted, C92_rigid_motion, C364_flange, C364_plate, C364_history, C364_defined, C364_more_groups, C364_adjacent_refuted, C308_area_monotone, C310_sorted, C311_moduli_y, C311_moduli_z, C311_shear, C311_gyration, C304_default_spring, C297_area_close, C299_tension_resistance, C302_plain_C_bottom_flange_refuted, C304_springs_in_series, C228_corner_refuted, C229_edge_stiffener, C229_edge_stiffener_monotone, C233_rotational_partial, C233_rotational_refuted, C233_rotational_monotone, C233_shear_stiffness, C233_shear_stiffness_monotone, C244_modulus_table, C244_strengths, C244_creep_annex_B, C244_creep_monotone, C244_creep_early, C245_elastic, C245_composite_coefficient, C245_creep, C245_modular_ratios, C245_built_beam, C247_second_moment_refuted, C248_contribution, C248_concrete_modulus, C248_resistance, C248_longer_lasting, C248_raises, C249_plastic_moment, C249_bars_cut_refuted, C250_second_order, C250_design_moment_refuted, C250_utilisation_refuted, C351_real_gap, C293_stiffness, C293_moment_unit_refuted, C263_angle, C61_standard, C61_hydrocarbon, C102_steel, C102_stainless, C102_standard_curve, C102_hydrocarbon_curve, C213_weights, C142_thread_area, C150_table_6_4, C150_table_6_4_group, C150_table_6_6_outside, C150_table_6_6, C158_alpha_value, C158_boundary_curve, C142_values_partial, C142_ordering, C142_free_function_refuted, C148_inner_row, C150_flange_lengths, C151_components, C151_bolts, C151_defined_partial, C151_stiffener_refuted, C152_chain, C157_ratio, C158_alpha, C33_slope, C207_terrain, C207_velocity, C75_formula, C75_monotone, C75_below_minimum_height, C75_category, C173_euler_load, C173_strength, C174_torsion_refuted, C175_check, C176_critical_moment_partial, C177_cantilever, C179_buckling, C180_beam_column_partial, C180_lateral_torsional_refuted, C182_design_partial, C182_history_refuted, C182_lateral_torsional_refuted, C183_stiffness_weight_cost, C320_ridge, C321_face_partial, C321_new_node, C321_falling_refuted, C321_distance_refuted, C222_integrals, C222_central, C122_angle, C374_area, C162_eccentricity, C165_positive, C165_angle, C165_chord_force, C165_values, C166_axial, C168_chord_stress_refuted, C168_positive_partial, C168_angle_partial, C168_values_partial, C169_utilisation_partial, C169_interpolation_refuted, C169_wide_brace_refuted, C170_side_wall_partial, C171_x_joint_partial, C242_fillets, C63_valid_dimensions_never_raise, C63_constructor_succeeds, C63_raised_update_leaves_stale, C64_area_positive, C64_second_moment_positive, C65_shear_areas_refuted, C66_rhs, C67_chs, C105_rhs, C353_values, C353_grows, C353_tangent_below, C353_tangent_above, C353_table, C353_beyond_refuted, C353_raises_beyond, C353_hot_refuted, C353_slope_refuted, C353_gap_refuted, C352_against_standard, C352_unsafe_refuted, C189_range, C189_side, C189_resistance, C189_length, C189_factor_refuted, C190_belly, C190_volume, C190_belly_end_refuted, C191_curved, C191_curved_ridge, C200_k_vol, C200_k_vol_refuted, C345_acute, C345_reversed, C345_value, C345_chord_angle, C346_gap, C346_same_side_refuted, C347_ridge_face, C347_ridge_face_refuted, C349_y_design, C349_y_ignores_chord, C349_y_high_grade, C241_constructor, C276_last_written, C366_small_zone_refuted.

## Modelled and unmodelled code

Found from the line numbers the comments of the models cite. A function counts as modelled if at least three tenths of
its lines (comments and blank lines included) are cited, as modelled in part if some are. What a model leaves out of a
modelled function is said in the comment of its definition. Drawing, printing, reports and interfaces to other programs
(Robot; Abaqus but for the data exported) are not modelled.

* `metku/cost/cost_calculation.py` (Cost_model.v). Modelled: `bolt_cost`, `annual_cost`. Not modelled: `MaterialCost.__init__`, `MaterialCost.cost_of_plate`, `CostCenter.__init__`, `CostCenter.info`, `BlastingCost.__init__`, `CuttingCost.__init__`, `DrillingCost.__init__`, `PartAssemblyCost.__init__`, `PostTreatmentCost.__init__`, `PaintingCost.__init__`.
* `metku/cost/cost_data.py` (Cost_model.v, Joint_model.v). Modelled: `steel_grade_add_on`, `thickness_add_on`, `quantity_add_on`. Not modelled: `quantity_per_thicknsee_add_on`, `inspection_add_on`, `profile_price`.
* `metku/cost/workshop.py` (Cost_model.v). Modelled: `annual_cost`, `CostCentre.__init__`, `CostCentre.cost`, `BlastingCost.__init__`, `BlastingCost.ProductiveTime`, `BlastingCost.cost`, `CuttingCost.__init__`, `CuttingCost.ProductiveTime`, `CuttingCost.Consumables`, `CuttingCost.Energy`, `CuttingCost.cost`, `PaintingCost.__init__`, `PaintingCost.productive_time`, `PaintingCost.consumables`, `PaintingCost.cost`, `AssemblingCostWeld.__init__`, `AssemblingCostWeld.welding_time`, `AssemblingCostWeld.consumables`, `AssemblingCostWeld.cost`, `SawingCost.__init__`, `SawingCost.productive_time`, `SawingCost.consumables`, `SawingCost.feeding_speed`, `SawingCost.Fsp`, `SawingCost.blade_durability`, `SawingCost.cost`, `DrillingCost.cost`, `Workshop.__init__`. Not modelled: `print_initial_cost_data`, `CostCentre.Area`, `CostCentre.info`, `BeamWeldingCost.__init__`, `BeamWeldingCost.ProductiveTime`, `BeamWeldingCost.welding_time`, `BeamWeldingCost.productive_time`, `BeamWeldingCost.consumables`, `AssemblingCostWeld.productive_time`, `SawingCost.non_productive_time`, `DrillingCost.__init__`, `DrillingCost.non_productive_time`, `DrillingCost.ProductiveTime`, `DrillingCost.Consumables`, `DrillingCost.Energy`, `Workshop.info`.
* `metku/eurocodes/en1991/en1991.py` (Loads_model.v, Lres_model.v). Modelled: `Load.__init__`, `Load.combined`, `Load.__copy__`, `Load.__repr__`, `AreaLoad.__init__`, `AreaLoad.__copy__`, `AreaLoad.__repr__`, `ImposedLoad.__init__`, `ImposedLoad.__copy__`, `ImposedLoad.__repr__`, `SnowLoad.__init__`, `SnowLoad.__copy__`, `SnowLoad.__repr__`, `WindLoad.__init__`, `WindLoad.__copy__`, `WindLoad.__repr__`, `Combiner.__init__`, `Combiner.add`, `Combiner.sum_G_k`, `Combiner.sum_Q_k`, `Combiner.sum_Q_k_excluding`, `Combiner.use_reduction_factor`, `Combiner.get_single_result`, `Combiner.get_single_split_result`, `ULSCombiner.combine`, `ULSCombiner.get_result`, `SLSCombiner.combine`, `SLSCombiner.get_result`, `ACCCombiner.combine`, `ACCCombiner.get_result`, `MultiCombiner.__init__`, `MultiCombiner.add`, `MultiCombiner.use_reduction_factor`, `MultiCombiner.get_result`. Not modelled: `Combiner.get_comb_factors`, `Combiner.combine`, `Combiner.get_result`.
* `metku/eurocodes/en1991/en1991_1_4.py` (Loads_model.v, Wfr_model.v). Modelled: `interpolate`, `ExternalPressureMonoRoof.__init__`, `terrain_roughness`, `mean_wind_velocity`, `turbulence_intensity`, `peak_velocity_pressure`, `rect_building_wall_pressure`, `monopitch_roof_pressure`, `flat_roof_pressure`. Not modelled: `basic_wind_velocity`, `basic_velocity_pressure`, `wind_pressure_ext`, `wind_pressure_int`.
* `metku/eurocodes/en1992/constants.py` (Comp_model.v). Modelled: `Concrete.fcd`, `Concrete.nu_cracked`, `Concrete.creep_coefficient`. In part: `Concrete.__init__`. Not modelled: none.
* `metku/eurocodes/en1992/en1992_1_1.py` (Comp_model.v). Modelled: `Rebar.r`, `Rebar.weight`, `Rebar.fyd`, `Rebar.A`, `Rebar.I`. Not modelled: `fcd`, `Rebar.__init__`, `Rebar.E`, `Rebar.fy`, `Rebar.fu`.
* `metku/eurocodes/en1993/en1993_1_1.py` (EC3_model.v, Secls_model.v). Modelled: `sway_imperfection`, `epsilon`, `internal_part_in_bending`, `internal_part_in_compression`, `internal_part_comp_bend`, `outstand_part_in_compression`, `CHS_class`, `tension_resistance`, `net_section_resistance`, `compression_resistance`, `bending_resistance`, `shear_resistance`, `slenderness`, `buckling_reduction_factor`, `buckling_strength`, `beam_column_utility`, `kyy`, `kzy`, `kzz`, `kyz`, `equivalent_moment_factor`. Not modelled: none.
* `metku/eurocodes/en1993/en1993_1_2.py` (Fire_model.v, Stls_model.v). Modelled: `standard_fire`, `hydrocarbon_fire`, `linear_interpolation`, `reduce_property`, `EaT`, `fyT`, `fpT`, `f02pT`, `fuT`, `kbT`, `stress`, `stress_stainless`, `therm_elongation`, `therm_conductivity`, `spec_heat`, `therm_elongation_stainless`, `therm_conductivity_stainless`, `spec_heat_stainless`, `steel_temp`, `stainless_steel_temp`, `hnet`. Not modelled: `stress_strain_curves`, `stress_strain_curves_stainless`, `unprotected_sections`.
* `metku/eurocodes/en1993/en1993_1_3/cf_profs.py` (CfProf_model.v). Modelled: `ruukki_z`, `corner_points`, `ZSection.__init__`, `ZSection.issymmetric`, `ZSection.Rm`, `ZSection.Aeff`, `ZSection.NRd`, `ZSection.fya`, `ZSection.t`, `ZSection.bp_w`, `ZSection.bp_t`, `ZSection.bp_b`, `ZSection.bp_t_lip`, `ZSection.bp_b_lip`, `ZSection.gr`, `ZSection.create_points`, `ZSection.create_model`, `ZSection.create_effective_model`, `ZSection.hw`, `ZSection.hw_center`, `ZSection.bt_center`, `ZSection.bb_center`, `ZSection.bt_lip_center`, `ZSection.bb_lip_center`, `ZSection.c_top`, `ZSection.c_bottom`, `ZSection.ca_straight`, `ZSection.cb_straight`, `ZSection.rm`, `ZSection.center_line_length`, `ZSection.Agross`, `ZSection.effective_width_flange`, `ZSection.effective_width_edge_stiffener`, `ZSection.effective_width_web`, `ZSection.distortional_buckling`, `ZSection.area`, `ZSection.centroid`, `ZSection.effective_section`, `ZSection.edge_stiffness`, `ZSection.kh`, `ZSection.KB`, `ZSection.K`, `ZSection.axial_force_resistance`, `CSection.kh0`, `CSection.kh`, `CSection.create_points`, `CSection.create_effective_model`, `CSection.create_edge_stiffener`. Not modelled: `ZSection.npoints`, `ZSection.Ro`, `ZSection.E`, `ZSection.G`, `ZSection.A`, `ZSection.Iw`, `ZSection.It`, `ZSection.Iy`, `ZSection.Iz`, `ZSection.Iyz`, `ZSection.Ifz`, `ZSection.fyb`, `ZSection.fu`, `ZSection.h`, `ZSection.a`, `ZSection.b`, `ZSection.ca`, `ZSection.cb`, `ZSection.shear_center`, `ZSection.add`, `ZSection.design_value`, `ZSection.weight`, `ZSection.self_weight`, `ZSection.create_edge_stiffener`, `ZSection.create_free_flange`, `ZSection.flange_lip`, `ZSection.centroid_eff`, `ZSection.second_moment`, `ZSection.stress_ratio`, `ZSection.export_cufsm`, `ZSection.draw`, `CSection.__init__`, `CSection.draw`, `CSection.export_cufsm`, `Cexample`, `Cdesign`.
* `metku/eurocodes/en1993/en1993_1_3/en1993_1_3.py` (Cold_model.v). Modelled: `linear_interpolation`, `fya`, `gr`, `notional_width`, `rounding_factor`, `distortional_buckling_reduction_factor`, `buckling_factor_edge_stiffener`, `distortional_buckling_stress`, `axial_force_resistance`, `RwRd`, `RwRd_two_webs`, `screw_validity`, `screw_bearing_resistance`, `screw_bearing_resistance_elevated_temp`, `screw_net_secton_resistance`, `screw_shear_resistance_fin`, `sheeting_shear_stiffness`, `CD_A`. Not modelled: `GrooveStiffener.__init__`, `GrooveStiffener.bp1`, `GrooveStiffener.bp2`.
* `metku/eurocodes/en1993/en1993_1_3/open_prof.py` (Prof_model.v). Modelled: `OpenProf.__init__`, `OpenProf.area`, `OpenProf.first_moments`, `OpenProf.centroid`, `OpenProf.second_moments`, `OpenProf.second_moments_gc`, `OpenProf.Iy0`, `OpenProf.Iz0`, `OpenProf.Iy`, `OpenProf.Iz`, `OpenProf.product_moment`, `OpenProf.product_moment_gc`, `OpenProf.sectorial_coordinates`, `OpenProf.mean_sectorial_moment`, `OpenProf.mean_sectorial_coordinate`, `OpenProf.sectorial_constants`, `OpenProf.shear_center`, `OpenProf.warping_constant`, `OpenProf.torsion_constant`, `OpenProf.torsion_modulus`, `OpenProf.split_segment`, `Node.__init__`, `Node.__repr__`, `Node.coord`, `Segment.length`, `Segment.area`, `Segment.first_moment_y`, `Segment.second_moment_y`, `Segment.first_moment_z`, `Segment.second_moment_z`, `Segment.product_moment`. Not modelled: `OpenProf.n`, `OpenProf.y_coord`, `OpenProf.z_coord`, `OpenProf.add_segment`, `OpenProf.draw`, `OpenProf.principal_axes`, `OpenProf.export_cufsm`, `Node.draw`, `Segment.__init__`, `Segment.coord`, `Segment.y`, `Segment.z`, `Segment.mid_point`, `Segment.draw`.
* `metku/eurocodes/en1993/en1993_1_3/trapezoidal.py` (Cold_model.v, Skin_model.v). Modelled: `TrapezoidalSheet.__init__`, `TrapezoidalSheet.hw`, `TrapezoidalSheet.sw`, `TrapezoidalSheet.pitch`, `TrapezoidalSheet.width`, `TrapezoidalSheet.A`. Not modelled: `TrapezoidalSheet.E`, `TrapezoidalSheet.nu`, `TrapezoidalSheet.fy`, `TrapezoidalSheet.fu`.
* `metku/eurocodes/en1993/en1993_1_5.py` (Plate_model.v). Modelled: `shear_eta`, `reduction_factor_internal`, `reduction_factor_outstand`, `lambda_p`, `buckling_factor_internal`, `buckling_factor_outstand`, `effective_width_internal`, `effective_width_outstand`, `transverse_force_resistance`, `shear_buckling_reduction_factor`, `shear_buckling_coefficient`, `sigma_E`, `tau_crit`, `shear_buckling_slenderness`, `shear_buckling_web`, `shear_buckling_flanges`. Not modelled: none.
* `metku/eurocodes/en1993/en1993_1_8/component_method.py` (Brk_model.v, Epj_model.v, Joint_model.v). Modelled: `min_coeff_w`, `lambda11`, `par_alfa`, `new_alpha`, `col_web_shear`, `col_web_shear_k`, `beam_web_compression`, `beam_web_tension`, `Tstub_compression_flange`, `col_web_trv_comp`, `col_web_trv_comp_k`, `col_web_trv_comp_stiffened`, `column_web_tension`, `column_web_tension_k`, `column_flange_bending_k`, `end_plate_bending_k`, `bolt_row_tension_k`. Not modelled: `find_alpha`, `column_flange_bending`, `end_plate_bending`.
* `metku/eurocodes/en1993/en1993_1_8/en1993_1_8.py` (Brk_model.v, Epj_model.v, Epo_model.v, Joint_model.v). Modelled: `Bolt.__init__`, `Bolt.dw`, `Bolt.size`, `Bolt.shear_resistance`, `Bolt.tension_resistance`, `Bolt.bearing_resistance`, `BoltRow.__init__`, `BoltRow.z_top`, `BoltRow.Lb`, `BoltRow.h`, `BoltRow.emin_flange`, `BoltRow.ex`, `BoltRow.mx`, `BoltRow.col_flange_m`, `BoltRow.col_flange_e`, `BoltRow.end_plate_m`, `BoltRow.end_plate_m2`, `BoltRow.top_flange_stiffener_m2`, `BoltRow.leff_flange_group`, `BoltRow.leff_plate_group`, `BoltRow.k3`, `BoltRow.k4`, `BoltRow.k5`, `BoltRow.k10`, `BoltRow.column_web_in_tension`, `BoltRow.column_flange_in_bending`, `BoltRow.end_plate_in_bending`, `BoltRow.beam_web_in_tension`, `BoltRow.tension_resistance`, `BoltRow.keff`, `BoltRowGroup.__init__`, `BoltRowGroup.p`, `BoltRowGroup.tension_resistance`, `TStub.__init__`, `TStub.info`, `TStub.fy`, `TStub.emin`, `TStub.tf`, `TStub.m`, `TStub.m2`, `TStub.n`, `TStub.leff`, `TStub.leff_1`, `TStub.leff_2`, `TStub.leff_nc`, `TStub.leff_cp`, `TStub.leff_nc_as_group`, `TStub.leff_cp_as_group`, `TStub.MplRd_1`, `TStub.MplRd_2`, `TStub.F_T_1_Rd`, `TStub.F_T_2_Rd`, `TStub.F_T_12_Rd`, `TStub.F_T_3_Rd`, `TStub.FT_Rd`, `TStubColumnFlange.__init__`, `TStubColumnFlange.tf`, `TStubColumnFlange.emin`, `TStubColumnFlange.m`, `TStubColumnFlange.m2`, `TStubColumnFlange.e`, `TStubColumnFlange.leff_cp`, `TStubColumnFlange.leff_nc`, `TStubColumnFlange.leff_cp_as_group`, `TStubColumnFlange.leff_nc_as_group`, `TStubEndPlate.__init__`, `TStubEndPlate.info`, `TStubEndPlate.bp`, `TStubEndPlate.tf`, `TStubEndPlate.emin`, `TStubEndPlate.m`, `TStubEndPlate.m2`, `TStubEndPlate.e`, `TStubEndPlate.w`, `TStubEndPlate.leff_cp`, `TStubEndPlate.leff_nc`, `TStubEndPlate.leff_cp_as_group`, `TStubEndPlate.leff_nc_as_group`, `TStubGroup.__init__`, `TStubGroup.fy`, `TStubGroup.tf`, `TStubGroup.n`, `TStubGroup.m`, `TStubGroup.leff`, `TStubGroup.leff_1`, `TStubGroup.leff_2`, `TStubGroup.leff_nc`, `TStubGroup.leff_cp`, `TStubGroup.leff_nc_as_group`, `TStubGroup.leff_cp_as_group`, `TStubGroup.leff_nc_row`, `TStubGroup.leff_cp_row`, `TStubGroup.leff_row`, `TStubGroup.MplRd_1`, `TStubGroup.MplRd_2`, `TStubGroup.F_T_1_Rd`, `TStubGroup.F_T_2_Rd`, `TStubGroup.F_T_3_Rd`, `TStubGroup.FT_Rd`, `TStubGroupColumnFlange.leff_nc`, `TStubGroupColumnFlange.leff_cp`, `TStubGroupColumnFlange.leff_nc_row`, `TStubGroupColumnFlange.leff_cp_row`, `TStubGroupEndPlate.leff_nc`, `TStubGroupEndPlate.leff_cp`, `TStubGroupEndPlate.leff_nc_row`, `TStubGroupEndPlate.leff_cp_row`, `bolt_shear_resistance`, `bolt_bearing_resistance`, `bolt_tension_resistance`, `bolt_punching_shear_resistance`, `shear_and_tension_resistance`, `block_tearing`, `stiffness_ratio`, `full_strength_weld_throat`, `full_strength_weld_tube`. Not modelled: `BoltRow.info`, `BoltRow.bolt_size`, `BoltRow.emin_plate`, `BoltRow.w`, `BoltRow.end_plate_e`, `BoltRow.leff_flange`, `BoltRow.leff_plate`, `BoltRowGroup.info`, `BoltRowGroup.column_web_in_tension`, `BoltRowGroup.column_flange_in_bending`, `BoltRowGroup.end_plate_in_bending`, `BoltRowGroup.beam_web_in_tension`, `TStubGroupColumnFlange.__init__`, `TStubGroupColumnFlange.fy`, `TStubGroupColumnFlange.tf`, `TStubGroupColumnFlange.n`, `TStubGroupColumnFlange.m`, `TStubGroupEndPlate.__init__`, `TStubGroupEndPlate.fy`, `TStubGroupEndPlate.tf`, `TStubGroupEndPlate.n`, `TStubGroupEndPlate.m`.
* `metku/eurocodes/en1993/en1993_1_8/rhs_joints.py` (Rhs_model.v, Tjt_model.v, Tube_model.v). Modelled: `eccentricity`, `rotate`, `Line.__init__`, `Line.__call__`, `Line.intersect`, `Line.distance`, `RHSJoint.__init__`, `RHSJoint.h0`, `RHSJoint.b0`, `RHSJoint.t0`, `RHSJoint.r0`, `RHSJoint.fy0`, `RHSJoint.gamma`, `RHSJoint.eval_KN`, `RHSJoint.strength_reduction`, `RHSJoint.eval_N`, `RHSJoint.chord_stress`, `RHSKGapJoint.__init__`, `RHSKGapJoint.N1`, `RHSKGapJoint.angle1`, `RHSKGapJoint.N2`, `RHSKGapJoint.angle2`, `RHSKGapJoint.N0gap`, `RHSKGapJoint.V0gap`, `RHSKGapJoint.h`, `RHSKGapJoint.b`, `RHSKGapJoint.t`, `RHSKGapJoint.fy`, `RHSKGapJoint.beta`, `RHSKGapJoint.eccentricity`, `RHSKGapJoint.chord_face_failure`, `RHSKGapJoint.chord_shear`, `RHSKGapJoint.a_eta`, `RHSKGapJoint.brace_failure`, `RHSKGapJoint.punching_shear`, `RHSKGapJoint.design`, `RHSYJoint.__init__`, `RHSYJoint.N1`, `RHSYJoint.beta`, `RHSYJoint.eta`, `RHSYJoint.fb`, `RHSYJoint.chord_face_failure`, `RHSYJoint.slend`, `RHSYJoint.chord_web_buckling`, `RHSYJoint.brace_failure`, `RHSYJoint.punching_shear`, `RHSYJoint.design`, `RHSXJoint.fb`, `RHSXJoint.chord_web_buckling`. Not modelled: `RHSJoint.b_straight`, `RHSJoint.beta`, `RHSJoint.new_evalN`, `RHSJoint.new_chord_axial_stress`, `RHSJoint.info`, `RHSJoint.draw`, `RHSKGapJoint.NEd`, `RHSKGapJoint.add_chord_face_plate`, `RHSKGapJoint.validity`, `RHSKGapJoint.info`, `RHSKGapJoint.draw`, `RHSKTGapJoint.__init__`, `RHSYJoint.h`, `RHSYJoint.b`, `RHSYJoint.t`, `RHSYJoint.fy`, `RHSYJoint.validity`, `RHSYJoint.info`, `RHSXJoint.__init__`, `RHSXJoint.info`, `Y_example`, `K_example`.
* `metku/eurocodes/en1994/constants.py` (Stud_model.v). Modelled: none. Not modelled: `Concrete.__init__`, `Concrete.fcd`.
* `metku/eurocodes/en1994/en1994_1_1.py` (Stud_model.v). Modelled: `ShearStud.PRd`. Not modelled: `ShearStud.__init__`.
* `metku/eurocodes/en1995/en1995_1_1.py` (Loads_model.v). Modelled: `kmod`, `k_to_d`, `get_gammaM`. Not modelled: `kdef`.
* `metku/eurocodes/en1995/en1995_1_2.py` (Loads_model.v). Modelled: `charring_speed`, `d_char_n`. Not modelled: none.
* `metku/eurocodes/en1995/fire_protection.py` (Loads_model.v, Timber_model.v). Modelled: `FireProtection.__init__`, `FireProtection.set_ta`, `FireProtection.set_tf_for_gypsumF`, `GypsumPlasterboardA.__init__`, `GypsumPlasterboardF.__init__`, `GypsumPlasterboardH.__init__`, `GypsumPlasterboardAA.__init__`, `GypsumPlasterboardFF.__init__`, `GypsumPlasterboardHH.__init__`, `GypsumPlasterboardAF.__init__`, `WoodenFireProtection.__init__`. Not modelled: `FireProtection.protected_material`.
* `metku/frame2d/frame2d.py` (Beam_model.v, F2d_model.v). Modelled: `Frame2D.L`, `Frame2D.H`, `Frame2D.add_member`, `Frame2D.optimize_members`, `Frame2D.generate_columns`, `Frame2D.generate_beams`, `FrameMember.to_global`, `FrameMember.perpendicular`, `FrameMember.unit`, `FrameMember.get_absmax_force_value`, `FrameMember.angle`, `FrameMember.dx`, `FrameMember.dy`, `FrameMember.Sj1`, `FrameMember.Sj2`, `FrameMember.shape`, `FrameMember.length`, `FrameMember.alpha_to_Sj`, `FrameMember.Sj_to_alpha`, `FrameMember.calc_nodal_coordinates`, `FrameMember.add_node_coord`, `FrameMember.add_nodes`, `FrameMember.generate_elements`, `FrameMember.calc_nodal_forces`, `FrameMember.assign_forces`, `FrameMember.optimum_design`, `FrameMember.line_intersection`, `FrameMember.point_intersection`, `FrameMember.round_coordinates`, `PointLoad.add_load`, `LineLoad.add_load`. In part: `Frame2D.generate`, `FrameMember.__init__`. Not modelled: `Frame2D.__init__`, `Frame2D.R`, `Frame2D.beams`, `Frame2D.columns`, `Frame2D.load_cases`, `Frame2D.add_lineload`, `Frame2D.add_pointload`, `Frame2D.add_support`, `Frame2D.add`, `Frame2D.add_materials_and_sections`, `Frame2D.calc_nodal_coordinates`, `Frame2D.calc_nodal_forces`, `Frame2D.calc_nodal_displacements`, `Frame2D.update_model`, `Frame2D.calculate`, `Frame2D.design_members`, `Frame2D.check_members_strength`, `Frame2D.delete_member`, `Frame2D.generate_nodes`, `Frame2D.generate_members`, `Frame2D.generate_supports`, `Frame2D.to_csv`, `Frame2D.to_robot`, `Frame2D.plot`, `Frame2D.plot_loads`, `Frame2D.plot_deflection`, `Frame2D.plot_buckling`, `Frame2D.bmd`, `Frame2D.plot_normal_force`, `Frame2D.weight`, `Frame2D.add_self_weight`, `Frame2D.remove_self_weight`, `Frame2D.assign_forces`, `Frame2D.rigid_joints`, `Frame2D.hinge_joints`, `Frame2D.print_info`, `FrameMember.copy`, `FrameMember.Y`, `FrameMember.start_coord`, `FrameMember.end_coord`, `FrameMember.NEd`, `FrameMember.VEd`, `FrameMember.MEd`, `FrameMember.A`, `FrameMember.Iy`, `FrameMember.E`, `FrameMember.fy`, `FrameMember.nu`, `FrameMember.rho`, `FrameMember.coordinates`, `FrameMember.load_ids`, `FrameMember.MRd`, `FrameMember.MbRd`, `FrameMember.NRd`, `FrameMember.NbRd`, `FrameMember.VRd`, `FrameMember.weight`, `FrameMember.h`, `FrameMember.material`, `FrameMember.profile`, `FrameMember.generate`, `FrameMember.generate_eccentricity_elements`, `FrameMember.calc_nodal_displacements`, `FrameMember.add_self_weight`, `FrameMember.remove_self_weight`, `FrameMember.add_material`, `FrameMember.add_section`, `FrameMember.locs`, `FrameMember.check_cross_section`, `FrameMember.design`, `FrameMember.plot`, `FrameMember.plot_results`, `FrameMember.bmd`, `FrameMember.sfd`, `FrameMember.plot_normal_force`, `FrameMember.lineload_elements`, `FrameMember.add_hinge`, `SteelFrameMember.__init__`, `TimberFrameMember.__init__`, `TimberFrameMember.R`, `TimberFrameMember.profile`, `TimberFrameMember.material`, `TimberFrameMember.add_material`, `TimberFrameMember.add_self_weight`, `TimberFrameMember.weight`, `TimberFrameMember.check_cross_section`, `TimberFrameMember.print_utility_factor`, `TimberFrameMember.get_printing_color`, `TimberFrameMember.print_info`, `SteelBeam.__init__`, `SteelBeam.check_mtype`, `SteelColumn.__init__`, `SteelColumn.check_mtype`, `LoadCombination.__init__`, `LoadCombination.add`, `LoadCase.__init__`, `LoadCase.add`, `Load.__init__`, `PointLoad.__init__`, `PointLoad.coordinate`, `LineLoad.__init__`, `LineLoad.coordinates`, `LineLoad.calc_k`, `Support.__init__`, `Support.coordinate`, `Support.add_support`, `FixedSupport.__init__`, `XHingedSupport.__init__`, `YHingedSupport.__init__`, `XYHingedSupport.__init__`, `Hinge.__init__`, `test`, `test_portal`.
* `metku/frame2d/materials.py` (Cat_model.v). Modelled: `Steel.__init__`, `Steel.__repr__`. Not modelled: none.
* `metku/frame2d/simple_truss.py` (Sizing_model.v). Modelled: none. Not modelled: `SimpleTruss.__init__`, `SimpleTruss.add`, `SimpleTrussMember.__init__`, `three_bar_truss`, `ten_bar_truss`, `fifteen_bar_truss`.
* `metku/framefem/elements/eb_semi_rigid_beam.py` (Beam_model.v, Elr_model.v). Modelled: `EBSemiRigidBeam.__init__`, `EBSemiRigidBeam.gamma`, `EBSemiRigidBeam.delta`, `EBSemiRigidBeam.matrix_S`, `EBSemiRigidBeam.local_stiffness_matrix`, `EBSemiRigidBeam.stiffness_matrix`. Not modelled: `EBSemiRigidBeam.transformation_matrix`, `EBSemiRigidBeam.global_dofs`, `EBSemiRigidBeam.local_geometric_stiffness_matrix`, `EBSemiRigidBeam.geometric_stiffness_matrix`, `EBSemiRigidBeam.equivalent_nodal_loads`.
* `metku/framefem/elements/ebbeam.py` (Beam_model.v, Elr_model.v, Fem_model.v). Modelled: `EBBeam.transformation_matrix`, `EBBeam.init_dofs`, `EBBeam.global_dofs`, `EBBeam.local_stiffness_matrix`, `EBBeam.stiffness_matrix`, `EBBeam.local_geometric_stiffness_matrix`, `EBBeam.local_second_order_stiffness_matrix`, `EBBeam.equivalent_nodal_loads`, `EBBeam.shape_fun`, `EBBeam3D.init_dofs`, `EBBeam3D.transformation_matrix`, `EBBeam3D.global_dofs`, `EBBeam3D.local_stiffness_matrix`. In part: `EBBeam.internal_forces`, `EBBeam3D.__init__`, `EBBeam3D.equivalent_nodal_loads`. Not modelled: `EBBeam.__init__`, `EBBeam.geometric_stiffness_matrix`, `EBBeam.second_order_stiffness_matrix`, `EBBeam.second_order_internal_forces`, `EBBeam3D.direction_vector`, `EBBeam3D.direction_cosines`, `EBBeam3D.stiffness_matrix`, `EBBeam3D.local_geometric_stiffness_matrix`, `EBBeam3D.internal_forces`.
* `metku/framefem/elements/rod.py` (Beam_model.v, Elr_model.v, Fem_model.v, Sizing_model.v). Modelled: `Rod.transformation_matrix`, `Rod.global_dofs`, `Rod.init_dofs`, `Rod.local_stiffness_matrix`, `Rod.stiffness_matrix`, `Rod.equivalent_nodal_loads`, `Rod.internal_forces`. Not modelled: `Rod.__init__`, `Rod.local_geometric_stiffness_matrix`, `Rod.geometric_stiffness_matrix`, `Rod.nodal_displacements`.
* `metku/framefem/elements/springs.py` (Beam_model.v, Elr_model.v, Fem_model.v). Modelled: `LinearSpring.transformation_matrix`, `LinearSpring.global_dofs`, `LinearSpring.init_dofs`, `LinearSpring.local_stiffness_matrix`, `LinearSpring.stiffness_matrix`. Not modelled: `LinearSpring.__init__`, `LinearSpring.local_geometric_stiffness_matrix`, `LinearSpring.geometric_stiffness_matrix`, `LinearSpring.equivalent_nodal_loads`, `LinearSpring.internal_forces`, `LinearSpring.nodal_displacements`.
* `metku/framefem/framefem.py` (Beam_model.v, Elr_model.v, Fem_model.v, Lan_model.v, Sizing_model.v, Soe_model.v). Modelled: `FrameFEM.add_loadcase`, `FrameFEM.add_release`, `FrameFEM.nodal_dofs`, `FrameFEM.global_free_dofs`, `FrameFEM.global_stiffness_matrix`, `FrameFEM.global_geometric_stiffness_matrix`, `FrameFEM.global_load_vector`, `FrameFEM.linear_statics`, `FrameFEM.second_order_elastic`, `FrameFEM.statics_matrix`, `Support.__init__`, `Load.__init__`, `PointLoad.__init__`, `PointLoad.load_and_dofs`, `LineLoad.__init__`, `LineLoad.load_and_dofs`, `FEMNode.__init__`, `Element.coord`, `Element.direction_cosines`, `Element.length`. In part: `FrameFEM.linear_buckling`. Not modelled: `FrameFEM.__init__`, `FrameFEM.nels`, `FrameFEM.nnodes`, `FrameFEM.nsupp`, `FrameFEM.nload`, `FrameFEM.nloadcases`, `FrameFEM.supp_dofs`, `FrameFEM.add_node`, `FrameFEM.nfree_dofs`, `FrameFEM.element_free_dofs`, `FrameFEM.add_material`, `FrameFEM.add_section`, `FrameFEM.add_element`, `FrameFEM.add_support`, `FrameFEM.add_load`, `FrameFEM.element_node_indices`, `FrameFEM.global_second_order_stiffness_matrix`, `FrameFEM.supported_dofs`, `FrameFEM.second_order_analysis`, `FrameFEM.draw`, `FrameFEM.print_displacements`, `Material.__init__`, `Section.__init__`, `BeamSection.__init__`, `BeamSection.Iy`, `BeamSection.Iz`, `Load.load_and_dofs`, `LoadCase.__init__`, `FEMNode.x`, `FEMNode.y`, `FEMNode.z`, `FEMNode.plot`, `Element.__init__`, `Element.equivalent_nodal_loads`, `Element.local_stiffness_matrix`, `Element.local_geometric_stiffness_matrix`, `Element.stiffness_matrix`, `Element.init_dofs`, `Element.global_dofs`, `Element.nodal_displacements`, `Element.local_displacements`, `Element.add_loadcase`, `Element.transformation_matrix`, `Element.internal_forces`, `Element.plot`.
* `metku/materials/steel.py` (Cat_model.v). Modelled: none. Not modelled: `SteelMaterial.__post_init__`.
* `metku/materials/steel_data.py` (Cat_model.v, CfProf_model.v, Comp_model.v, Skin_model.v). Modelled: `Steel.__init__`, `Steel.__repr__`, `Steel.young`, `Steel.eps`. Not modelled: `Steel.Etemp`, `Steel.fy_temp`, `Steel.fp_temp`, `Steel.fu_temp`, `Steel.stress_temp`, `StainlessSteel.__init__`, `StainlessSteel.eps`.
* `metku/materials/timber_data.py` (Timber_model.v). Modelled: `Timber.__init__`. Not modelled: none.
* `metku/optimization/constraints.py` (Asm_model.v, Epo_model.v, Epr_model.v, Heur_model.v, Linearize_model.v, OptVars_model.v, Problem_model.v, Reg_model.v, Rst_model.v, Sizing_model.v). Modelled: `Constraint.__init__`, `Constraint.__call__`, `Constraint.__repr__`, `Constraint.neg_call`, `LinearConstraint.__init__`, `LinearConstraint.__call__`, `NonLinearConstraint.__init__`, `NonLinearConstraint.__call__`, `NonLinearConstraint.df`. Not modelled: none.
* `metku/optimization/objective.py` (OptVars_model.v, Sizing_model.v). Modelled: `ObjectiveFunction.__call__`, `LinearObjective.__init__`, `LinearObjective.evaluate`. Not modelled: `ObjectiveFunction.__init__`, `ObjectiveFunction.neg_call`.
* `metku/optimization/opt_functions.py` (Approx_model.v, Asm_model.v, Csv_model.v, Problem_model.v). Modelled: `NumGrad`, `conlin_fun`, `mma_fun`, `MMAFunction.__init__`, `MMAFunction.__call__`, `MMAFunction.grad`, `index2binary`, `potentially_active_constraints`. Not modelled: `Linearize`.
* `metku/optimization/problems/end_plate.py` (Epo_model.v, Epr_model.v). Modelled: `EndPlateOpt.__init__`, `EndPlateOpt.available_constraints`, `EndPlateOpt.vertical_row_distance_constraints`, `EndPlateOpt.extension_edge_distance`, `EndPlateOpt.plate_edge_distance`, `EndPlateOpt.moment_resistance_constraints`, `EndPlateOpt.shear_resistance_constraints`, `EndPlateOpt.stiffness_constraint`, `EndPlateOpt.rigid_joint_constraint`, `EndPlateOpt.create_constraints`, `EndPlateOpt.create_variables`. Not modelled: `EndPlateOpt.create_objective`, `optimize_for_target_stiffness`, `optimize_for_stiffness`, `optimize_for_max_moment_resistance`, `optimize_for_rigid_joint`, `write_excel`, `run_optimization_series`.
* `metku/optimization/problems/raami_truss_optimization.py` (Sizing_model.v). Modelled: none. Not modelled: `TrussOptimization.__init__`, `TrussOptimization.available_constraints`, `TrussOptimization.available_formulations`, `TrussOptimization.create_variables`, `TrussOptimization.create_objective`, `TrussOptimization.create_constraints`, `TrussOptimization.stress_constraints`, `TrussOptimization.strength_constraints`, `TrussOptimization.buckling_constraints`, `TrussOptimization.displacement_constraint`, `TrussOptimization.fsd`, `TrussOptimization.scale_design`, `truss_lp`, `truss_milp`.
* `metku/optimization/problems/structural_problem.py` (Tube_model.v). Modelled: `StructuralProblem.joint_geometry_constraints`, `StructuralProblem.joint_strength_constraints`, `StructuralProblem.cross_section_constraints`, `StructuralProblem.deflection_constraints`, `StructuralProblem.cross_section_class_constraints`, `StructuralProblem.create_constraints`, `StructuralProblem.create_variables`, `StructuralProblem.index_to_binary`, `StructuralProblem.group_constraints`. In part: `StructuralProblem.stability_constraints`. Not modelled: `StructuralProblem.__init__`, `StructuralProblem.available_constraints`, `StructuralProblem.create_objective`, `test1`.
* `metku/optimization/problems/truss_milp.py` (Tmilp_model.v). Modelled: `TrussMILP.__init__`, `TrussMILP.nprof_vars`, `TrussMILP.nstate_vars`, `TrussMILP.start_ndx`, `TrussMILP.weight_obj`, `TrussMILP.compatibility_constraints`, `TrussMILP.strength_constraints`, `TrussMILP.add_top_opt_vars`, `TrussMILP.gather_node_data`, `TrussMILP.add_topology_constraints`, `TrussMILP.create_milp`. Not modelled: `TrussMILP.nmem`, `TrussMILP.nnodes`, `TrussMILP.nprof`, `TrussMILP.ndof`, `TrussMILP.nlc`, `TrussMILP.nvars`, `TrussMILP.statics_matrix`, `TrussMILP.substitute_design`, `TrussMILP.plot_design`, `TrussMILP.plot_ground_structure`.
* `metku/optimization/problems/truss_optimization.py` (Sizing_model.v). Modelled: `TrussOptimization.strength_constraints`, `TrussOptimization.buckling_constraints`, `TrussOptimization.displacement_constraint`, `TrussOptimization.fsd`, `TrussOptimization.scale_design`, `truss_lp`, `truss_milp`. In part: `TrussOptimization.stress_constraints`. Not modelled: `TrussOptimization.__init__`, `TrussOptimization.available_constraints`, `TrussOptimization.available_formulations`, `TrussOptimization.create_variables`, `TrussOptimization.create_objective`, `TrussOptimization.create_constraints`.
* `metku/optimization/solvers/aco.py` (Heur_model.v). Modelled: `AntColonyOptimizer.update_probabilities`, `AntColonyOptimizer.eval_ant`, `AntColonyOptimizer.evaluate`, `AntColonyOptimizer.local_pheromone_update`, `AntColonyOptimizer.global_pheromone_update_for_one_edge`, `AntColonyOptimizer.global_pheromone_update`, `AntColonyOptimizer.solve`, `Ant.__init__`, `Ant.__choose_design_variable`, `Ant.choose_design_variables`, `Ant.get_x`, `Ant.get_fitness`. Not modelled: `AntColonyOptimizer.__init__`, `AntColonyOptimizer.get_min_f`, `AntColonyOptimizer.calculate_member_mass`, `AntColonyOptimizer.initialize_heuristic_matrix`, `AntColonyOptimizer.initialize`.
* `metku/optimization/solvers/alm.py` (Heur_model.v). Modelled: `ALM.solve`. Not modelled: `ALM.__init__`.
* `metku/optimization/solvers/bnb.py` (BnB_model.v, Bnb2_model.v). Modelled: `BnBNode.__init__`, `BnBNode.level`, `BnB.select_node`, `BnB.lower_bound`, `BnB.upper_bound`, `BnB.variables_at_discrete_values`, `BnB.branch`, `BnB.feasibility_tightening`, `BnB.optimality_tightening`, `BnB.pre_process`, `BnB.solve`. Not modelled: `BnBNode.add_var_branch`, `BnBNode.is_feasible`, `BnBNode.info`, `BnB.__init__`, `BnB.add_node`, `BnB.remove_node`, `BnB.set_original_bounds`, `BnB.set_variable_bounds`, `BnB.max_level_nodes`, `BnB.min_level_nodes`, `BnB.post_process`.
* `metku/optimization/solvers/ga.py` (Gpop_model.v, Heur_model.v). Modelled: `GA.eval_individual`, `GA.attribute_generator`, `GA.new_population`. In part: `GA.__init__`, `GA.register`, `GA.solve`. Not modelled: `GA.take_action`, `GA.step`, `GA.create_fitness`.
* `metku/optimization/solvers/grid_search.py` (Solvers_model.v). Modelled: `GridSearch.__init__`, `GridSearch.solve`, `GridSearch.run`. Not modelled: none.
* `metku/optimization/solvers/lp.py` (Bnb2_model.v, Heur_model.v, Sizing_model.v). Modelled: `LP.solve`. Not modelled: `LP.__init__`, `Arora_Ex62`, `Arora_Ex63`, `Arora_Ex67`.
* `metku/optimization/solvers/milp.py` (Heur_model.v, Sizing_model.v, Tmilp_model.v). Modelled: none. In part: `MILP.solve`. Not modelled: `MILP.__init__`.
* `metku/optimization/solvers/mislp.py` (Heur_model.v). Modelled: `MISLP.take_action`, `ortools_mip_feasibility`. Not modelled: `MISLP.__init__`, `MISLP.step`.
* `metku/optimization/solvers/mma.py` (Approx_model.v, Asm_model.v). Modelled: `MMAProblem.__init__`, `MMA.__init__`, `MMA.gamma`, `MMA.take_action`. Not modelled: `MMA.step`.
* `metku/optimization/solvers/optsolver.py` (Approx_model.v, Heur_model.v, Rst_model.v, Solvers_model.v). Modelled: `OptSolver.__init__`, `OptSolver.calc_constraints`, `OptSolver.is_feasible`, `OptSolver._create_eqcons`, `OptSolver._create_ieqcons`, `OptSolver.stopping_criterion`, `OptSolver.step`, `OptSolver.solve`, `OptSolver.random_feasible_point`. Not modelled: `OptSolver._create_bounds`, `OptSolver.take_action`, `OptSolver.update_plot`, `OptSolver.plot_iters`.
* `metku/optimization/solvers/pso.py` (Solvers_model.v, Swarm_model.v). Modelled: `PSO.__init__`, `PSO.eval_particle`, `PSO.update_best`, `PSO.update_velocity`, `PSO.craziness`, `PSO.solve`, `Particle.__init__`, `Particle.move`. In part: `PSO.initizalize_population`. Not modelled: `PSO.elite_particle`, `PSO.print_pop`, `PSO.store_population`, `Particle.update_best`.
* `metku/optimization/solvers/slp.py` (Solvers_model.v). Modelled: `SLP.take_action`, `SLP.step`. In part: `SLP.__init__`. Not modelled: none.
* `metku/optimization/solvers/slsqp.py` (Heur_model.v). Modelled: `SLSQP._create_eqcons`, `SLSQP._create_ieqcons`, `SLSQP._create_bounds`, `COBYLA.solve`. In part: `SLSQP.solve`. Not modelled: `SLSQP.__init__`, `SLSQP.calc_constraints`, `SLSQP.callback`, `SLSQP.feasibility_stop`.
* `metku/optimization/solvers/steepest.py` (Heur_model.v). Modelled: `SteepestDescent.solve`. Not modelled: `line_search_obj`, `SteepestDescent.__init__`, `steep_ex_fun`, `steep_ex_grad`.
* `metku/optimization/solvers/trust_region.py` (Heur_model.v). Modelled: none. In part: `TrustRegionConstr.solve`. Not modelled: `TrustRegionConstr.__init__`, `TrustRegionConstr.calc_constraints`, `TrustRegionConstr._create_eqcons`, `TrustRegionConstr._create_ieqcons`, `TrustRegionConstr._create_bounds`, `TrustRegionConstr.callback`.
* `metku/optimization/solvers/two_phase.py` (Solvers_model.v, Tph_model.v). Modelled: `TwoPhase.discretize`, `TwoPhase.solve`. In part: `TwoPhase.__init__`. Not modelled: none.
* `metku/optimization/solvers/vns.py` (Heur_model.v). Modelled: `VNS.__init__`, `VNS.take_action`, `DiscreteVNS.__init__`, `DiscreteVNS.step`, `DiscreteVNS.solve`. Not modelled: `VNS.step`, `VNS.solve`, `DiscreteVNS.shake`, `DiscreteVNS.first_improvement`, `DiscreteVNS.neighbourhood_change`, `DiscreteVNS.take_action`.
* `metku/optimization/structopt.py` (Approx_model.v, Asm_model.v, Bnb2_model.v, Epo_model.v, Epr_model.v, Heur_model.v, Linearize_model.v, OptVars_model.v, Problem_model.v, Reg_model.v, Rpt_model.v, Rst_model.v, Sizing_model.v, Solvers_model.v). Modelled: `OptimizationProblem.__init__`, `OptimizationProblem.xlb`, `OptimizationProblem.add`, `OptimizationProblem.locked_vars`, `OptimizationProblem.all_vars`, `OptimizationProblem.vars`, `OptimizationProblem.fixed_vals`, `OptimizationProblem.feasible`, `OptimizationProblem.type_of_vars`, `OptimizationProblem.clear_vars`, `OptimizationProblem.random_values`, `OptimizationProblem.linearize`, `OptimizationProblem.conlin`, `OptimizationProblem.mma`, `OptimizationProblem.fea`, `OptimizationProblem.__call__`, `OptimizationProblem.eval_cons`, `OptimizationProblem.eval_ineq_con`, `OptimizationProblem.add_variable`, `OptimizationProblem.add_variables`, `OptimizationProblem.add_constraint`, `OptimizationProblem.var_bounds`, `OptimizationProblem.substitute_variables`, `OptimizationProblem.discrete_neighborhood`, `OptimizationProblem.exact_penalty_fun`, `OptimizationProblem.exterior_penalty_fun`, `OptimizationProblem.barrier_fun`, `OptimizationProblem.augmented_lagrangian`, `OptimizationProblem.update_lag_mult`. In part: `OptimizationProblem.solve`. Not modelled: `OptimizationProblem.xub`, `OptimizationProblem.del_var`, `OptimizationProblem.var_values`, `OptimizationProblem.print_vars`, `OptimizationProblem.non_linear_constraint`, `OptimizationProblem.linear_constraint`, `OptimizationProblem.nnonlincons`, `OptimizationProblem.eval_nonlin_cons`, `OptimizationProblem.eval_eq_con`, `OptimizationProblem.nvars`, `OptimizationProblem.nlincons`, `OptimizationProblem.nlineqcons`, `OptimizationProblem.add_constraints`, `OptimizationProblem.add_structure`, `OptimizationProblem.substitute_variable`.
* `metku/optimization/variable_group.py` (Heur_model.v). Modelled: `VariableGroup.__post_init__`. Not modelled: `has_attribute`.
* `metku/optimization/variables.py` (Asm_model.v, BnB_model.v, Bnb2_model.v, Csv_model.v, Epo_model.v, Heur_model.v, Linearize_model.v, OptVars_model.v, Problem_model.v, Reg_model.v, Rst_model.v, Sizing_model.v, Tmilp_model.v, Tph_model.v). Modelled: `Variable.__init__`, `Variable.__repr__`, `Variable.lock`, `Variable.unlock`, `Variable.scale`, `Variable.substitute`, `Variable.discrete_violation`, `IntegerVariable.__init__`, `IntegerVariable.is_allowed_value`, `IntegerVariable.discrete_violation`, `BooleanVariable.__init__`, `BinaryVariable.__init__`, `IndexVariable.__init__`, `IndexVariable.substitute`, `DiscreteVariable.__init__`, `DiscreteVariable.is_allowed_value`, `DiscreteVariable.discrete_violation`, `DiscreteVariable.smaller_discrete_value`, `DiscreteVariable.larger_discrete_value`, `CrossSectionVariable.__init__`, `CrossSectionVariable.substitute`. Not modelled: none.
* `metku/profiles/steel/isection_formulas.py` (Cat_model.v). Modelled: `area`, `shear_area_z`, `shear_area_y`, `perimeter`, `second_moment_of_area_y`, `second_moment_of_area_z`, `torsion_constant`, `warping_constant`, `plastic_section_modulus_y`, `plastic_section_modulus_z`, `elastic_section_modulus_y`, `elastic_section_modulus_z`. Not modelled: none.
* `metku/profiles/steel/isections.py` (Cat_model.v). Modelled: `ISection.iy`, `ISection.iz`. Not modelled: `ISection.__copy__`, `ISection.dimensions`, `ISection.A`, `ISection.Avy`, `ISection.Avz`, `ISection.P`, `ISection.Iy`, `ISection.Iz`, `ISection.I`, `ISection.It`, `ISection.Iw`, `ISection.Wply`, `ISection.Wely`, `ISection.Wplz`, `ISection.Welz`.
* `metku/raami/exports.py` (Abq_model.v). Modelled: `write_elset`, `write_nset`, `AbaqusOptions.__init__`. Not modelled: none.
* `metku/raami/frame_loads.py` (Lan_model.v, Portal_model.v, Raami_model.v). Modelled: `LoadCase.load_type`, `LoadCase.add`, `LoadCase.combine`, `LoadCombination.__init__`, `LoadCombination.clear_loads`, `LoadCombination.combine_loads`, `Load.__init__`, `Load.factored`, `PointLoad.__init__`, `PointLoad.coordinate`, `PointLoad.add_load`, `LineLoad.__init__`, `LineLoad.add_load`, `PWLineLoad.add_load`. In part: `LoadCase.__init__`. Not modelled: `LineLoad.coordinates`, `LineLoad.calc_k`, `PWLineLoad.__init__`, `PWLineLoad.coordinates`, `PWLineLoad.calc_k`.
* `metku/raami/frame_member.py` (Cat_model.v, Portal_model.v, Raami_model.v, Sym_model.v, Tjt_model.v). Modelled: `profile_list`, `FrameMember.__init__`, `FrameMember.cross_section`, `FrameMember.length`, `FrameMember.dir_vector`, `FrameMember.local_to_global`, `FrameMember.global_to_local`, `FrameMember.perpendicular`, `FrameMember.angle`, `FrameMember.add_self_weight`, `FrameMember.remove_self_weight`, `FrameMember.recalculate_coordinates`, `FrameMember.calc_nodal_coordinates`, `FrameMember.get_max_forces`, `FrameMember.design`, `FrameMember.generate_elements`, `FrameMember.add_hinge`, `MultiSpanMember.cross_section`, `MultiSpanMember.length`, `MultiSpanMember.weight`, `MultiSpanMember.dir_vector`, `MultiSpanMember.local_to_global`, `MultiSpanMember.global_to_local`, `MultiSpanMember.calc_nodal_coordinates`, `SteelFrameMember.design`, `SteelFrameMember.optimum_design`, `MultiSpanSteelMember.is_section`, `MultiSpanSteelMember.design`, `MultiSpanSteelMember.optimum_design`, `MemberGroup.__init__`, `MemberGroup.cross_section`, `MemberGroup.add_member`, `MemberGroup.is_section`, `MemberGroup.design`, `MemberGroup.optimum_design`. In part: `FrameMember.calc_nodal_forces`. Not modelled: `FrameMember.material`, `FrameMember.lcr`, `FrameMember.coords`, `FrameMember.weight`, `FrameMember.cost`, `FrameMember.calc_nodal_displacements`, `FrameMember.print_utilization`, `FrameMember.optimum_design`, `FrameMember.opposite_node`, `FrameMember.clear_fem`, `FrameMember.update_element_sections`, `FrameMember.plot`, `FrameMember.plot3d`, `FrameMember.bmd`, `FrameMember.robot_releases`, `MultiSpanMember.__init__`, `MultiSpanMember.lcr`, `MultiSpanMember.material`, `MultiSpanMember.plot`, `MultiSpanMember.bmd`, `MultiSpanMember.coords`, `MultiSpanMember.end_coords`, `MultiSpanMember.perpendicular`, `MultiSpanMember.angle`, `MultiSpanMember.calc_nodal_displacements`, `MultiSpanMember.calc_nodal_forces`, `MultiSpanMember.generate_elements`, `MultiSpanMember.clear_fem`, `MultiSpanMember.update_element_sections`, `MultiSpanMember.robot_releases`, `SteelFrameMember.__init__`, `SteelFrameMember.material_cost`, `SteelFrameMember.blasting_cost`, `SteelFrameMember.painting_cost`, `SteelFrameMember.make_framefem_material`, `SteelFrameMember.create_sections`, `SteelFrameMember.is_section`, `MultiSpanSteelMember.__init__`, `MultiSpanSteelMember.print_utilization`, `MemberGroup.material`.
* `metku/raami/frame_node.py` (Raami_model.v, Sym_model.v). Modelled: `FrameNode.__init__`, `FrameNode.x`, `FrameNode.y`. Not modelled: `FrameNode.z`, `FrameNode.plot`.
* `metku/raami/raami.py` (Abq_model.v, Lan_model.v, Portal_model.v, Raami_model.v, Sym_model.v). Modelled: `Raami.__init__`, `Raami.add_node`, `Raami.add_member`, `Raami.add_loadcase`, `Raami.add_loadcombination`, `Raami.add_pointload`, `Raami.add_lineload`, `Raami.add_self_weight`, `Raami.remove_self_weight`, `Raami.generate_fem`, `Raami.clear_fem`, `Raami.structural_analysis`, `Raami.design_members`, `Raami.optimize_members`, `Raami.xrange`, `Raami.symmetry`, `Raami.to_abaqus`. Not modelled: `Raami.weight`, `Raami.add_support`, `Raami.add`, `Raami.calculate`, `Raami.print_member_utilization`, `Raami.calc_nodal_forces`, `Raami.calc_nodal_displacements`, `Raami.plot`, `Raami.plot_nodes`, `Raami.plot_loads`, `Raami.bmd`, `Raami.plot_deflection`, `Raami.plot_deformed`, `Raami.yrange`, `Raami.bounding_box`, `Raami.to_robot`.
* `metku/raami/raami_plane_truss.py` (Portal_model.v, Tjt_model.v, Truss_model.v). Modelled: `PlaneTruss.__init__`, `PlaneTruss.xmid`, `PlaneTruss.xend`, `SlopedTruss.__init__`, `SlopedTruss.generate_topology`, `SlopedTruss.generate_supports`, `SlopedTruss.generate_uniform_load`, `SlopedTruss.generate_piecewise_uniform_load`, `SlopedTruss.generate_joints`, `TopChord.perpendicular`, `BottomChord.perpendicular`, `TubularJoint.__init__`, `TubularJoint.h0`, `TubularJoint.b0`, `TubularJoint.t0`, `TubularJoint.r0`, `TubularJoint.fy0`, `TubularJoint.h`, `TubularJoint.b`, `TubularJoint.t`, `TubularJoint.fy`, `TubularJoint.gamma`, `TubularJoint.b_straight`, `TubularJoint.beta`, `TubularJoint.eval_KN`, `TubularJoint.strength_reduction`, `TubularJoint.eval_N`, `TubularJoint.chord_stress`, `TubularJoint.new_evalN`, `TubularJoint.new_chord_axial_stress`, `TubularJoint.weld_size`, `TubularJoint.brace_angle`, `TubularJoint.cost`, `TubularJoint.symmetry_joint`, `TubularJoint.design`, `TubularJoint.clear_fem`, `TubularYJoint.__init__`, `TubularYJoint.__repr__`, `TubularYJoint.angle`, `TubularYJoint.h`, `TubularYJoint.b`, `TubularYJoint.t`, `TubularYJoint.fy`, `TubularYJoint.beta`, `TubularYJoint.eta`, `TubularYJoint.fb`, `TubularYJoint.slend`, `TubularYJoint.chord_face_failure`, `TubularYJoint.chord_web_buckling`, `TubularYJoint.brace_failure`, `TubularYJoint.punching_shear`, `TubularYJoint.design`, `TubularYJoint.clear_fem`, `TubularKGapJoint.__init__`, `TubularKGapJoint.V0gap`, `TubularKGapJoint.yloc`, `TubularKGapJoint.xloc`, `TubularKGapJoint.xc_face`, `TubularKGapJoint.brace_chord_face_x`, `TubularKGapJoint.xchord`, `TubularKGapJoint.eccentricity`, `TubularKGapJoint.calc_gap`, `TubularKGapJoint.chord_shear`, `TubularKGapJoint.design`. In part: `SlopedTruss.generate_fem`. Not modelled: `unit_vector`, `PlaneTruss.Hleft`, `PlaneTruss.Hmid`, `PlaneTruss.Hright`, `PlaneTruss.top_chord_profile`, `PlaneTruss.bottom_chord_profile`, `PlaneTruss.bottom_chord_dy`, `PlaneTruss.xbottom_left`, `PlaneTruss.xbottom_right`, `PlaneTruss.dir_vec_origin_to_midspan`, `PlaneTruss.dir_vec_midspan_to_end`, `PlaneTruss.generate_outline`, `PlaneTruss.add`, `PlaneTruss.cost`, `PlaneTruss.determine_symmetry_joints`, `PlaneTruss.design_joints`, `PlaneTruss.max_brace_width`, `PlaneTruss.to_abaqus`, `SlopedTruss.height_of_slope_left`, `SlopedTruss.weight_detailed`, `SlopedTruss.symmetry`, `SlopedTruss.clear_fem`, `SlopedTruss.update_fem_joint_nodes`, `SlopedTruss.plot`, `SlopedTruss.optimize_members`, `TrussMember.__init__`, `TopChord.__init__`, `TopChord.cost`, `TopChord.print_utilization`, `TopChord.generate_elements`, `MultiSpanTopChord.__init__`, `BottomChord.__init__`, `BottomChord.cost`, `BottomChord.print_utilization`, `BottomChord.generate_elements`, `TrussBrace.__init__`, `TrussBrace.cost`, `TrussBrace.sawing_cost`, `TrussBrace.print_utilization`, `TrussBrace.robot_releases`, `TrussBrace.generate_elements`, `TrussBrace.angle_top`, `TrussBrace.angle_bottom`, `TrussBrace.coords_actual_geometry`, `TrussBrace.dir_vector_xp`, `TrussBrace.plot`, `TubularKGapJoint.xp_coord`, `TubularKGapJoint.gap`, `TubularKGapJoint.angles`, `TubularKGapJoint.beta`, `TubularKGapJoint.chord_face_failure`, `TubularKGapJoint.a_eta`, `TubularKGapJoint.brace_failure`, `TubularKGapJoint.punching_shear`, `TubularKGapJoint.clear_fem`, `TubularKTGapJoint.__init__`, `TubularKTGapJoint.clear_fem`, `Ktruss_example`, `Ntruss_example`, `KTtruss_example`.
* `metku/raami/raami_portal_truss.py` (Portal_model.v). Modelled: `PortalTruss.ridge_height`, `PortalTruss.update_fem_joint_nodes`, `PortalTruss.generate_uniform_load`, `PortalTruss.generate_piecewise_uniform_load`. In part: `PortalTruss.create_truss`, `PortalTruss.create_truss_to_column_joints`, `PortalTruss.generate_fem`. Not modelled: `PortalTruss.__init__`, `PortalTruss.col_length`, `PortalTruss.col_profile`, `PortalTruss.weight_detailed`, `PortalTruss.add`, `PortalTruss.create_columns`, `PortalTruss.generate_supports`, `PortalTruss.clear_fem`, `PortalTruss.plot`, `PortalTruss.optimize_members`, `PortalTruss.to_abaqus`, `Truss2ColumnJoint.__init__`, `Truss2ColumnJoint.hc`.
* `metku/raami/raami_truss_opt.py` (Ecc_model.v). Modelled: `minimize_eccentricity`. Not modelled: none.
* `metku/raami/raami_vierendeel.py` (Portal_model.v). Modelled: `VierendeelTruss.__init__`, `VierendeelTruss.weight_detailed`, `VierendeelTruss.generate_topology`, `VierendeelTruss.generate_supports`, `VierendeelTruss.generate_joints`, `VierendeelTruss.generate_uniform_load`, `VierendeelTruss.generate_chord_point_load`. Not modelled: `unit_vector`, `VierendeelTruss.symmetry`, `VierendeelTruss.clear_fem`, `VierendeelTruss.generate_fem`, `VierendeelTruss.optimize_members`, `SlopedTruss.__init__`, `SlopedTruss.height_of_slope_left`, `SlopedTruss.weight_detailed`, `SlopedTruss.generate_topology`, `SlopedTruss.generate_supports`, `SlopedTruss.generate_uniform_load`, `SlopedTruss.generate_piecewise_uniform_load`, `SlopedTruss.generate_joints`, `SlopedTruss.symmetry`, `SlopedTruss.clear_fem`, `SlopedTruss.generate_fem`, `SlopedTruss.update_fem_joint_nodes`, `SlopedTruss.plot`, `SlopedTruss.optimize_members`, `vierendeel_example`.
* `metku/sandwich/sandwich.py` (Skin_model.v). Modelled: `ruukki_panel`, `SandwichScrew.__init__`, `Face.__init__`, `Face.fy`, `Face.fu`, `Face.E`, `Face.tcor`, `Face.A`, `Face.I`, `Face.EI`, `Face.EA`, `Core.__init__`, `SandwichPanel.__init__`, `SandwichPanel.thickness`, `SandwichPanel.d`, `SandwichPanel.S`, `SandwichPanel.EIo`, `SandwichPanel.EIs`, `SandwichPanel.fastener_transverse_stiffness`, `SandwichPanel.shear_stiffness_for_support`, `SandwichPanel.fastener_shear_resistance`. Not modelled: `SandwichPanel.Atop`, `SandwichPanel.Abottom`, `SandwichPanel.tF2_cor`, `SandwichPanel.fu_F2`, `example`.
* `metku/sections/composite/composite_beam.py` (Comp_model.v). Modelled: `ConcreteSlab.__init__`, `ConcreteSlab.h`, `ConcreteSlab.h0`, `ConcreteSlab.weight`, `CompositeSlab.__init__`, `CompositeSlab.h`, `CompositeSlab.h0`, `CompositeSlab.concrete_weight`, `CompositeIBeam.__init__`, `CompositeIBeam.creep_coefficient`, `CompositeIBeam.n0`, `CompositeIBeam.nC`, `CompositeIBeam.nS`, `CompositeIBeam.beff`, `CompositeIBeam.yc`, `CompositeIBeam.ya`, `CompositeIBeam.EAa`, `CompositeIBeam.EIa`, `CompositeIBeam.Ecm`, `CompositeIBeam.Ecc`, `CompositeIBeam.Ecs`, `CompositeIBeam.Ac`, `CompositeIBeam.Ic`, `CompositeIBeam.centroid`, `CompositeIBeam.EAcom`, `CompositeIBeam.ya_com`, `CompositeIBeam.yc_com`, `CompositeIBeam.EIcom`, `CompositeIBeam.distance_centroids`, `CompositeIBeam.composite_coefficient`, `CompositeIBeam.Ra`, `CompositeIBeam.Rc`, `CompositeIBeam.Rf`, `CompositeIBeam.Rw`, `CompositeIBeam.plastic_neutral_axis`, `CompositeIBeam.MplRd`. Not modelled: `ConcreteSlab.draw`, `CompositeSlab.draw`, `CompositeIBeam.Aa`, `CompositeIBeam.Ia`, `CompositeIBeam.Ea`, `CompositeIBeam.EIc`, `CompositeIBeam.EAc`, `CompositeIBeam.EAcc`, `CompositeIBeam.EIcc`, `CompositeIBeam.VRd`, `CompositeIBeam.draw`.
* `metku/sections/composite/composite_column.py` (Comp_model.v). Modelled: `ConcreteFilledTube.__init__`, `ConcreteFilledTube.weight_per_length`, `ConcreteFilledTube.NEd`, `ConcreteFilledTube.M1`, `ConcreteFilledTube.M2`, `ConcreteFilledTube.fcd`, `ConcreteFilledTube.lcry`, `ConcreteFilledTube.lcrz`, `ConcreteFilledTube.u`, `ConcreteFilledTube.v`, `ConcreteFilledTube.As`, `ConcreteFilledTube.Is`, `ConcreteFilledTube.Wps`, `ConcreteFilledTube.Eceff`, `ConcreteFilledTube.Ac`, `ConcreteFilledTube.Ic`, `ConcreteFilledTube.Wpc`, `ConcreteFilledTube.EIeff`, `ConcreteFilledTube.EIeffII`, `ConcreteFilledTube.e0`, `ConcreteFilledTube.steel_contribution_ratio`, `ConcreteFilledTube.reinforcement_ratio`, `ConcreteFilledTube.NaRd`, `ConcreteFilledTube.NplRd`, `ConcreteFilledTube.NplRk`, `ConcreteFilledTube.Ncr`, `ConcreteFilledTube.Ncreff`, `ConcreteFilledTube.slenderness`, `ConcreteFilledTube.NbRd`, `ConcreteFilledTube.NpmRd`, `ConcreteFilledTube.Mpl_max_Rd`, `ConcreteFilledTube.MplRd`, `ConcreteFilledTube.alpha_m`, `ConcreteFilledTube.design`. Not modelled: `ConcreteFilledTube.fyd`, `ConcreteFilledTube.fsd`, `ConcreteFilledTube.z_rebar`, `ConcreteFilledTube.y_rebar`, `ConcreteFilledTube.Aa`, `ConcreteFilledTube.Ia`, `ConcreteFilledTube.Wpa`, `ConcreteFilledTube.Ea`, `ConcreteFilledTube.EAa`, `ConcreteFilledTube.EIa`, `ConcreteFilledTube.EIs`, `ConcreteFilledTube.Ecm`, `ConcreteFilledTube.EIc`, `ConcreteFilledTube.EAc`, `ConcreteFilledTube.EAcom`, `ConcreteFilledTube.EIcom`, `ConcreteFilledTube.Ra`, `ConcreteFilledTube.Rc`, `ConcreteFilledTube.Rf`, `ConcreteFilledTube.Rw`, `ConcreteFilledTube.VRd`, `ConcreteFilledTube.draw`.
* `metku/sections/steel/CHS.py` (Secls_model.v, Sections_model.v). Modelled: `CHS.area`, `CHS.paint_area`, `CHS.shear_area`, `CHS.second_moment`, `CHS.elastic_modulus`, `CHS.plastic_modulus`, `CHS.torsion_modulus`, `CHS.web_class_bend`, `CHS.web_class_comp`, `CHS.flange_class`. Not modelled: `CHS.__init__`, `CHS.web_class_comp_bend`, `CHS.bending_resistance`, `CHS.MomentAxialForceInteract`, `CHS_area`, `CHS_paint_area`, `CHS_shear_area`, `CHS_second_moment`, `CHS_elastic_modulus`, `CHS_plastic_modulus`, `CHS_torsion_modulus`, `CustomCHS.__init__`, `CustomCHS.__getattribute__`.
* `metku/sections/steel/ISection.py` (Cat_model.v, Comp_model.v, Secls_model.v, Sections_model.v). Modelled: `ISection.__init__`, `ISection.hw`, `ISection.cf`, `ISection.flange_class`, `ISection.compressed_flange`, `ISection.web_class_comp`, `ISection.web_class_bend`, `ISection.web_class_comp_bend`, `ISection.moment_axial_force_interact`, `IPE.__init__`, `HEA.__init__`, `HEAA.__init__`, `HEB.__init__`, `HEC.__init__`, `HEM.__init__`, `cross_section_properties`. Not modelled: `ISection.robot`, `ISection.info`, `ISection.box_section_factor`, `ISection.shadow_effect`, `ISection.draw`, `HEA.robot`, `HEB.robot`, `CustomISection.__init__`, `CustomISection.cross_section_properties`.
* `metku/sections/steel/RHS.py` (Rab_model.v, Secls_model.v, Sections_model.v). Modelled: `RHS.__init__`, `RHS.update_properties`, `RHS.__setattr__`, `RHS.torsional_constant`, `RHS.flange_class`, `RHS.web_class_comp`, `RHS.web_class_bend`, `RHS.web_class_comp_bend`, `RHS.moment_axial_force_interact`, `RHS.abaqus`, `RHS_area`, `RHS_paint_area`, `RHS_shear_area`, `RHS_second_moment`, `RHS_elastic_modulus`, `RHS_plastic_modulus`, `RHS_outer_radius`. Not modelled: `RHS.h`, `RHS.b`, `RHS.t`, `RHS.r`, `RHS.robot`, `RHS.info`, `RHS.c_web`, `RHS.c_flange`, `RHS.draw`, `SHS.__init__`.
* `metku/sections/steel/catalogue.py` (Cat_model.v). Modelled: `make_ipe`, `make_hea`, `make_heb`, `make_rhs`, `make_section`. Not modelled: `print_shs`.
* `metku/sections/steel/steel_section.py` (Member_model.v, Secls_model.v, Sections_model.v). Modelled: `SteelSection.__init__`, `SteelSection.Iy`, `SteelSection.iy`, `SteelSection.i0`, `SteelSection.eps`, `SteelSection.NRd`, `SteelSection.VRd`, `SteelSection.VyRd`, `SteelSection.VzRd`, `SteelSection.sigmaN`, `SteelSection.sigmaM`, `SteelSection.section_class`, `SteelSection.bending_resistance`, `SteelSection.section_resistance`. In part: `SteelSection.MRd`. Not modelled: `SteelSection.cost`, `SteelSection.material`, `SteelSection.G`, `SteelSection.fy`, `SteelSection.fu`, `SteelSection.Iz`, `SteelSection.Wply`, `SteelSection.Wplz`, `SteelSection.Wely`, `SteelSection.Welz`, `SteelSection.section_factor`, `SteelSection.box_section_factor`, `SteelSection.shadow_effect`, `SteelSection.iz`, `SteelSection.MyRd`, `SteelSection.MzRd`, `SteelSection.C`, `SteelSection.epsilon`, `SteelSection.flange_class`, `SteelSection.web_class_comp`, `SteelSection.web_class_bend`, `SteelSection.web_class_comp_bend`, `SteelSection.robot`, `SteelSection.abaqus`, `SteelSection.weight`, `SteelSection.self_weight`, `SteelSection.stress_ratio`, `SteelSection.sigma_com`, `SteelSection.axial_force_resistance`, `SteelSection.elastic_bending_resistance`, `SteelSection.plastic_bending_resistance`, `SteelSection.shear_force_resistance`, `SteelSection.moment_axial_force_interact`.
* `metku/sections/steel/wbox.py` (Plate_model.v). Modelled: none. In part: `WBSection.effective_web`. Not modelled: `WBSection.__init__`, `WBSection.__getattribute__`, `WBSection.__setattr__`, `WBSection.hw`, `WBSection.Aw`, `WBSection.Izw`, `WBSection.Iyw`, `WBSection.zw`, `WBSection.Af`, `WBSection.Izb`, `WBSection.Iyb`, `WBSection.zb`, `WBSection.Izt`, `WBSection.Iyt`, `WBSection.zt`, `WBSection.cf_top`, `WBSection.cf_bottom`, `WBSection.cw`, `WBSection.MfRd`, `WBSection.NtopRd`, `WBSection.NbottomRd`, `WBSection.Aeff`, `WBSection.shear_centre`, `WBSection.wagners_factor`, `WBSection.flange_class`, `WBSection.web_class_comp`, `WBSection.web_class_bend`, `WBSection.web_class_comp_bend`, `WBSection.moment_axial_force_interact`, `WBSection.area`, `WBSection.shear_area`, `WBSection.paint_area`, `WBSection.elastic_neutral_axis`, `WBSection.plastic_neutral_axis`, `WBSection.second_moment`, `WBSection.section_modulus`, `WBSection.plastic_section_modulus`, `WBSection.torsional_constant`, `WBSection.warping_constant`, `WBSection.effective_flange`, `WBSection.shear_buckling_resistance`, `WBSection.draw`, `test_sym`, `test_non_sym`.
* `metku/sections/steel/wi.py` (Plate_model.v, Secls_model.v, Sections_model.v). Modelled: `WISection.__init__`, `WISection.__getattribute__`, `WISection.__setattr__`, `WISection.Aw`, `WISection.Izw`, `WISection.Iyw`, `WISection.zw`, `WISection.Ab`, `WISection.Izb`, `WISection.Iyb`, `WISection.zb`, `WISection.At`, `WISection.Izt`, `WISection.Iyt`, `WISection.zt`, `WISection.cf_top`, `WISection.cf_bottom`, `WISection.cw`, `WISection.MfRd`, `WISection.Aeff`, `WISection.I_eff_y`, `WISection.W_eff_y`, `WISection.bending_resistance`, `WISection.effective_second_moment_area_y`, `WISection.shear_centre`, `WISection.wagners_factor`, `WISection.flange_class`, `WISection.web_class_comp`, `WISection.web_class_bend`, `WISection.web_class_comp_bend`, `WISection.moment_axial_force_interact`, `WISection.area`, `WISection.shear_area`, `WISection.paint_area`, `WISection.elastic_neutral_axis`, `WISection.effective_neutral_axis`, `WISection.plastic_neutral_axis`, `WISection.second_moment`, `WISection.section_modulus`, `WISection.plastic_section_modulus`, `WISection.torsional_constant`, `WISection.warping_constant`, `WISection.effective_flange`, `WISection.effective_web`, `WISection.shear_buckling_resistance`. Not modelled: `WISection.NtopRd`, `WISection.NbottomRd`, `WISection.effective_area`, `WISection.Weff`, `WISection.Ieffy`, `WISection.hneg`, `WISection.transverse_load_resistance`, `WISection.draw`, `WISection.draw_eff`, `test_sym`, `test_non_sym`.
* `metku/sections/steel/wq.py` (Secls_model.v, Sections_model.v, Wqp_model.v). Modelled: `WQSection.__init__`, `WQSection.hw`, `WQSection.Aw`, `WQSection.zw`, `WQSection.Ab`, `WQSection.zb`, `WQSection.At`, `WQSection.zt`, `WQSection.cf`, `WQSection.flange_class`, `WQSection.web_class_comp`, `WQSection.web_class_bend`, `WQSection.web_class_comp_bend`, `WQSection.area`, `WQSection.paint_area`, `WQSection.elastic_neutral_axis`, `WQSection.plastic_neutral_axis`, `WQSection.second_moment`, `WQSection.section_modulus`, `WQSection.plastic_section_modulus`. Not modelled: `WQSection.height`, `WQSection.tb`, `WQSection.bb`, `WQSection.tt`, `WQSection.bt`, `WQSection.lip`, `WQSection.moment_axial_force_interact`, `WQSection.shear_area`, `WQSection.draw`.
* `metku/sections/timber/timber_section.py` (Timber_model.v, Tseg_model.v). Modelled: `TimberSection.__init__`, `TimberSection.set_beta_0_and_n`, `TimberSection.material`, `TimberSection.H`, `TimberSection.B`, `TimberSection.I`, `TimberSection.get_I`, `TimberSection.Wel`, `TimberSection.get_Wel`, `TimberSection.k_h`, `TimberSection.A`, `TimberSection.fire_protection_generic`, `TaperedSection.create_elements`, `TaperedSection.get_H`, `TaperedSection.get_A`, `TaperedSection.get_Wel`, `TaperedSection.get_I`, `PulpettiPalkki.get_unmodified_h`, `HarjaPalkki.get_unmodified_h`, `MahaPalkki.get_unmodified_h`, `KaarevaPalkki.update_circles`, `KaarevaPalkki.f1`, `KaarevaPalkki.f2`, `KaarevaPalkki.f3`, `KaarevaPalkki.f4`, `KaarevaPalkki.f5`, `KaarevaPalkki.f6`, `KaarevaPalkki.get_unmodified_h`, `KaarevaHarjaPalkki.get_unmodified_h`. In part: `KaarevaHarjaPalkki.update_circles`. Not modelled: `TimberSection.get_H`, `TimberSection.get_A`, `TimberSection.get_R`, `TaperedSection.__init__`, `TaperedSection.update_elements`, `TaperedSection.get_unmodified_h`, `PulpettiPalkki.__init__`, `PulpettiPalkki.H0`, `PulpettiPalkki.Hap`, `HarjaPalkki.__init__`, `HarjaPalkki.H0`, `HarjaPalkki.Hap`, `HarjaPalkki.Xap`, `MahaPalkki.__init__`, `MahaPalkki.H0`, `MahaPalkki.Hap`, `MahaPalkki.hap`, `MahaPalkki.Xap`, `KaarevaPalkki.__init__`, `KaarevaPalkki.H0`, `KaarevaPalkki.Hap`, `KaarevaPalkki.Alpha`, `KaarevaPalkki.Beta`, `KaarevaPalkki.R_in`, `KaarevaPalkki.A_face`, `KaarevaHarjaPalkki.__init__`, `KaarevaHarjaPalkki.f1`, `KaarevaHarjaPalkki.f2`, `KaarevaHarjaPalkki.f3`, `KaarevaHarjaPalkki.f4`, `KaarevaHarjaPalkki.f5`, `KaarevaHarjaPalkki.f6`, `KaarevaHarjaPalkki.H`, `KaarevaHarjaPalkki.H0`, `KaarevaHarjaPalkki.Hap`, `KaarevaHarjaPalkki.Alpha`, `KaarevaHarjaPalkki.Beta`, `KaarevaHarjaPalkki.R_in`, `KaarevaHarjaPalkki.A_face`, `SmallElementSection.__init__`.
* `metku/structures/steel/cf_steel_member.py` (CfMem_model.v). Modelled: `CFSteelMember.slenderness`, `CFSteelMember.buckling_strength`, `CFSteelMember.Sreq`. Not modelled: `CFSteelMember.__init__`.
* `metku/structures/steel/end_plate_joint.py` (Epj_model.v, Epo_model.v, Joint_model.v). Modelled: `EndPlateJoint.__init__`, `EndPlateJoint.p`, `EndPlateJoint.ebolts`, `EndPlateJoint.etop`, `EndPlateJoint.xbolts`, `EndPlateJoint.nrows`, `EndPlateJoint.tension_rows`, `EndPlateJoint.zc`, `EndPlateJoint.bp`, `EndPlateJoint.tp`, `EndPlateJoint.Mpl_fc_Rd`, `EndPlateJoint.Mpl_st_Rd`, `EndPlateJoint.V_wp_Rd`, `EndPlateJoint.Fc_wc_Rd`, `EndPlateJoint.k2`, `EndPlateJoint.bending_resistance`, `EndPlateJoint.keq`, `EndPlateJoint.zeq`, `EndPlateJoint.zeq_and_keq`, `EndPlateJoint.moment_arm`, `EndPlateJoint.k_comp`, `EndPlateJoint.Sj_ini`, `EndPlateJoint.rotational_stiffness`, `EndPlateJoint.shear_resistance`. In part: `EndPlateJoint.add_stiffener`. Not modelled: `EndPlateJoint.MjEd`, `EndPlateJoint.VjEd`, `EndPlateJoint.MjRd`, `EndPlateJoint.VjRd`, `EndPlateJoint.bolt_size`, `EndPlateJoint.calculate`, `EndPlateJoint.emin`, `EndPlateJoint.beta`, `EndPlateJoint.k1`, `EndPlateJoint.beff_c_wc`, `EndPlateJoint.Fc_fb_Rd`, `EndPlateJoint.hr`, `EndPlateJoint.cost`, `EndPlateJoint.cost_distribution`, `EndPlateJoint.info`, `EndPlateJoint.draw`, `example_1`, `example_diaz`, `diax_ex_rows`, `suscos_ex`, `olivaers_ex`.
* `metku/structures/steel/fin_plate_joint.py` (Fin_model.v). Modelled: `FinPlateJoint.__init__`, `FinPlateJoint.e1`, `FinPlateJoint.e2`, `FinPlateJoint.e1b`, `FinPlateJoint.e2b`, `FinPlateJoint.z`, `FinPlateJoint.I`, `FinPlateJoint.bolt_shear`, `FinPlateJoint.fin_plate_bearing`, `FinPlateJoint.fin_plate_shear_gross`, `FinPlateJoint.fin_plate_shear_net`, `FinPlateJoint.fin_plate_block_tearing`, `FinPlateJoint.fin_plate_bending`, `FinPlateJoint.fin_plate_ltb`, `FinPlateJoint.beam_web_bearing`, `FinPlateJoint.beam_web_shear_net`, `FinPlateJoint.beam_web_block_tearing`, `FinPlateJoint.check_bolt_position`. Not modelled: `FinPlateJoint.bp`, `FinPlateJoint.hp`, `FinPlateJoint.tp`, `FinPlateJoint.fyp`, `FinPlateJoint.fup`, `FinPlateJoint.d0`, `FinPlateJoint.p1`, `FinPlateJoint.p2`, `FinPlateJoint.beam_web_shear_gross`, `FinPlateJoint.draw`, `FinPlateJoint.cost`, `FinPlateJoint.cost_distribution`, `example`, `FinPlateConnection.__init__`, `FinPlateConnection.calculate_connection_details`, `FinPlateConnection.plot_connection_diagram`.
* `metku/structures/steel/plates.py` (Cost_model.v, Epj_model.v, Epo_model.v, Fin_model.v). Modelled: `RectPlate.__init__`, `RectPlate.area`, `RectPlate.end_area`, `RectPlate.side_area`, `RectPlate.volume`, `RectPlate.circumference`, `RectPlate.paint_area`, `RectPlate.weight`, `RectPlate.cost`, `RectPlateWithHoles.__init__`, `RectPlateWithHoles.n`, `RectPlateWithHoles.eLeft`, `RectPlateWithHoles.eRight`, `RectPlateWithHoles.eTop`. Not modelled: `RectPlate.E`, `RectPlate.fy`, `RectPlate.fu`, `RectPlate.cost_distribution`, `RectPlate.draw`, `RectPlateWithHoles.draw`, `RectPlateWithHoles.cost`.
* `metku/structures/steel/steel_member.py` (CfMem_model.v, Member_model.v, Rhs_model.v). Modelled: `SteelMember.__init__`, `SteelMember.ned`, `SteelMember.myed`, `SteelMember.mzed`, `SteelMember.MEdY`, `SteelMember.MEdZ`, `SteelMember.NEd`, `SteelMember.NcEd`, `SteelMember.nsect`, `SteelMember.Cmy`, `SteelMember.ncrit`, `SteelMember.ncrit_T`, `SteelMember.slenderness`, `SteelMember.slenderness_torsional`, `SteelMember.LT_slenderness`, `SteelMember.buckling_strength`, `SteelMember.torsional_buckling_strength`, `SteelMember.LT_buckling_strength`, `SteelMember.weight_per_length`, `SteelMember.weight`, `SteelMember.cost`, `SteelMember.mcrit`, `SteelMember.mcrit_cantilever`, `SteelMember.add_section`, `SteelMember.check_section`, `SteelMember.check_sections`, `SteelMember.check_buckling`, `SteelMember.check_LT_buckling`, `SteelMember.check_beamcolumn`, `SteelMember.required_shear_stiffness`, `SteelMember.design`. In part: `SteelMember.clear_sections`. Not modelled: `SteelMember.vyed`, `SteelMember.vzed`, `SteelMember.ted`, `SteelMember.NbRd`, `SteelMember.MbRd`, `SteelMember.VEdY`, `SteelMember.VEdZ`, `SteelMember.fy`, `SteelMember.mcrit_buckling`.
* `metku/structures/steel/stressed_skin.py` (Skin_model.v). Modelled: `StressedSkin.__init__`, `StressedSkin.Fs`, `StressedSkin.beta3`, `StressedSkin.beta1`, `StressedSkin.nf`, `StressedSkin.K`, `StressedSkinRafters.__init__`, `StressedSkinRafters.ns`, `StressedSkinRafters.nsc`, `StressedSkinRafters.nsh`, `StressedSkinRafters.rafter_t`, `StressedSkinRafters.edge_member_t`, `StressedSkinRafters.Fp`, `StressedSkinRafters.Fsc`, `StressedSkinRafters.seam_strength`, `StressedSkinRafters.sheet_rafter_fastener_strength`, `StressedSkinRafters.profile_distortion`, `StressedSkinRafters.shear_strain`, `StressedSkinRafters.fastener_deformation`, `StressedSkinRafters.edge_member_strain`, `StressedSkinRafters.shear_flexibility`. Not modelled: `StressedSkinRafters.edge_member_fastener_strength`, `StressedSkinRafters.end_collapse`.
* `metku/structures/timber/clt_slab.py` (Skin_model.v). Modelled: `CLTLayer.__init__`, `CLTLayer.Iy`, `CLTLayer.Iz`, `CLTLayer.EIy`, `CLTLayer.EIz`, `CLTSlab.__init__`, `CLTSlab.hclt`, `CLTSlab.zgc`. Not modelled: `CLTLayer.Ay`, `CLTLayer.Az`, `CLTSlab.Ay`, `CLTSlab.Az`, `CLTSlab.EIy`, `CLTSlab.draw`.
* `metku/structures/timber/timber_member.py` (Apx_model.v, Timber_model.v, Tpc_model.v, Tseg_model.v). Modelled: `TimberMember.__init__`, `TimberMember.k_L`, `TimberMember.sigma_t0d`, `TimberMember.sigma_c0d`, `TimberMember.sigma_m_alpha_d`, `TimberMember.sigma_t90d`, `TimberMember.M_apd`, `TimberMember.W_ap`, `TimberMember.k_r`, `TimberMember.V_tot`, `TimberMember.k_vol`, `TimberMember.k_dis`, `TimberMember.k_p`, `TimberMember.k_l`, `TimberMember.k_m_alpha`, `TimberMember.alfa`, `TimberMember.sigma_c90d`, `TimberMember.update_kc90`, `TimberMember.sigma_md`, `TimberMember.get_max_sigma_per_segment`, `TimberMember.tau_d`, `TimberMember.tau_tord`, `TimberMember.I_tor`, `TimberMember.k_shape`, `TimberMember.beta_c`, `TimberMember.radius_of_gyration`, `TimberMember.lamda_rel`, `TimberMember.k`, `TimberMember.k_c`, `TimberMember.l_ef`, `TimberMember.sigma_mcrit`, `TimberMember.lamda_relm`, `TimberMember.k_crit`, `TimberMember.check_tapered_beam_bending_tension`, `TimberMember.check_perpendicular_to_grain_tension`, `TimberMember.check_normal_force`, `TimberMember.check_perpendicular_compression`, `TimberMember.check_shear_force`, `TimberMember.check_bending_moment`, `TimberMember.check_torsion`, `TimberMember.check_bending_tension`, `TimberMember.check_bending_compression`, `TimberMember.check_buckling`, `TimberMember.check_LT_buckling`, `TimberMember.bracing`, `TimberMember.check_apex_shear_perpendicular_tension_combined`, `TimberMember.add_section`, `TimberMember.section_resistance`, `TimberMember.check_cross_section`, `TimberMember.check_sections`, `TimberMember.calc_l_c`, `TimberMember.design`. In part: `TimberMember.V`. Not modelled: `TimberMember.get_kdef`, `TimberMember.R`, `TimberMember.fmd`, `TimberMember.unmodified_fmd`, `TimberMember.ft0d`, `TimberMember.unmodified_ft0d`, `TimberMember.ft90d`, `TimberMember.fc0d`, `TimberMember.fc90d`, `TimberMember.fvd`, `TimberMember.ft90edged`, `TimberMember.fr0d`, `TimberMember.MEdY`, `TimberMember.MEdZ`, `TimberMember.NEd`, `TimberMember.A`, `TimberMember.get_A`, `TimberMember.Iy`, `TimberMember.Iz`, `TimberMember.E0mean`, `TimberMember.h`, `TimberMember.b`, `TimberMember.Ln`, `TimberMember.lamda`, `TimberMember.sigma`, `TimberMember.check_single_tapered_beam_bending_tension`, `TimberMember.check_apex_bending_stress`, `TimberMember.check_apex_perpendicular_tension`, `TimberMember.clear_sections`, `TimberMember.check_section`, `TimberMember.nsect`, `TimberMember.add_neighbours_support`.
* `metku/truss2d/truss2d.py` (Tube_model.v). Modelled: `TrussJoint.__init__`, `TrussJoint.loc`, `TrussJoint.e`, `TrussJoint.g1`, `TrussJoint.calc_nodal_coordinates`. In part: `TrussJoint.theta1`. Not modelled: `Truss2D.__init__`, `Truss2D.H0`, `Truss2D.H1`, `Truss2D.H2`, `Truss2D.H3`, `Truss2D.dx`, `Truss2D.generate_chords`, `Truss2D.generate_webs`, `Truss2D.add`, `Truss2D.calculate`, `Truss2D.generate`, `Truss2D.mirror`, `Truss2D.get_deflection`, `TrussMember.__init__`, `TrussMember.profile`, `TrussMember.calc_nodal_coordinates`, `TrussMember.update_steel_members_forces`, `TrussMember.update_steel_members_lengths`, `TrussMember.check_cross_section`, `TrussMember.local`, `TrussMember.global_coord`, `TrussMember.shape`, `TrussMember.generate_elements`, `TrussMember.plot`, `TrussMember.bmd`, `Chord.__init__`, `Chord.generate`, `Chord.check_cross_section`, `TopChord.__init__`, `BottomChord.__init__`, `BottomChord.perpendicular`, `TrussWeb.__init__`, `TrussWeb.bot_coord`, `TrussWeb.top_coord`, `TrussJoint.add_node_coord`, `TrussJoint.add_web`, `TrussJoint.coordinate`, `TrussJoint.theta2`, `TrussJoint.g2`, `TrussJoint.N0`, `TrussJoint.V0`, `TrussJoint.M0`, `TrussJoint.calculate`, `TrussJoint.chord_face_failure`, `TrussJoint.punching_shear`, `TrussJoint.brace_failure`, `TrussJoint.chord_shear`, `TrussJoint.chord_web_buckling`, `TrussJoint.round_coordinates`, `TrussJoint.generate`, `TrussJoint.generate_nodes`, `TrussJoint.get_chord_elements`, `TrussJoint.add_section_and_material`, `TrussJoint.generate_eccentricity_elements`, `TrussJoint.plot`, `TrussJoint.plot_joint`, `TrussJoint.update_forces`, `TrussColumn.__init__`, `TrussColumn.add`, `TrussColumn.generate_chords`, `TrussColumn.generate_webs`, `line_intersection`.

Files with functions, none of them modelled: `metku/design/steel_section.py`, `metku/examples/beam_optimization.py`, `metku/examples/mathematical_optimization.py`, `metku/examples/raami_plane_truss_example.py`, `metku/examples/threebartruss_optimization.py`, `metku/frame2d/frame.py`, `metku/frame2d/frame2d_test.py`, `metku/frame2d/frameoptimizer.py`, `metku/frame2d/geometry.py`, `metku/frame2d/loads.py`, `metku/frame2d/member.py`, `metku/frame2d/plane_truss.py`, `metku/frame2d/robot3D.py`, `metku/frame2d/supports.py`, `metku/frame2d/test_frame2d.py`, `metku/framefem/loads/lineload.py`, `metku/framefem/loads/pointload.py`, `metku/framefem/sections/beamsection.py`, `metku/helpers/upper_str_enum.py`, `metku/log_to_file.py`, `metku/optimization/benchmarks/24m_truss.py`, `metku/optimization/benchmarks/benchmark_trusses.py`, `metku/optimization/benchmarks/fifteen_bar_truss.py`, `metku/optimization/benchmarks/fifty_two_bar_truss.py`, `metku/optimization/benchmarks/simple_fifteen_bar_truss.py`, `metku/optimization/benchmarks/simple_ten_bar_truss.py`, `metku/optimization/benchmarks/ten_bar_truss.py`, `metku/optimization/benchmarks/three_bar_truss.py`, `metku/optimization/calculations/portal_frame_calculations.py`, `metku/optimization/calculations/truss_calculations.py`, `metku/optimization/problems/end_plate_cost.py`, `metku/optimization/problems/ibeam_test.py`, `metku/optimization/problems/truss.py`, `metku/optimization/problems/wi_column.py`, `metku/optimization/results/renderer.py`, `metku/optimization/results/result_creator.py`, `metku/optimization/results/result_exporter.py`, `metku/optimization/results/result_plotter.py`, `metku/optimization/solvers/conlin.py`, `metku/optimization/solvers/pso_deap.py` (does not parse), `metku/optimization/solvers/slqp.py`, `metku/optimization/to_csv.py`, `metku/profiles/steel/test/test_isections.py`, `metku/raami/frame_supports.py`, `metku/raami/raami_functions.py`, `metku/raami/raami_simple_truss.py`, `metku/sections/cross_sections.py`, `metku/sections/steel/test_ISection.py`, `metku/sections/steel/test_rhs.py`, `metku/settings/settings.py`, `metku/settings/units.py`, `metku/structures/steel/beam.py` (does not parse), `metku/structures/steel/column_base_joint.py`, `metku/structures/steel/roof_truss.py`, `metku/structures/steel/tapered_steel_member.py`, `metku/structures/truss.py`, `metku/tests/test_frame2d.py`, `metku/tests/test_framefem.py` (does not parse), `metku/tests/test_framemember.py`, `metku/tests/test_steel.py`, `metku/tests/test_steel_section.py`, `metku/tests/test_steelmember.py`, `metku/tests/test_wisection.py`, `metku/truss2d/truss2d_testing.py`.

## Plan per property

* **C01** Substitution keeps free variables inside their bounds: list-of-variables state, clamp `max(lb,min(x,ub))`; invariant over `fold_left` of substitutions.
* **C02** Locked variables never move: operations lock/unlock/substitute on a list of variables; invariant by induction over the operation list.
* **C03** A locked index variable ignores direct substitution: model of `IndexVariable.substitute`, compare with `Variable.substitute`; expected refutation (value overwritten while locked).
* **C04** Constraints see the full design vector in declaration order when some variables are locked: transcribe the `reversed/pop` refill loop, prove it equals the declarative "fill the holes" specification for every lock pattern by induction.
* **C05** Objective evaluation assigns each free variable its own entry: transcribe `ObjectiveFunction.__call__` (refill followed by zip with unlocked variables); expected refutation plus a theorem for lock patterns in which it works.
* **C06** Feasibility verdict is exactly tolerance-wise satisfaction of every constraint: fold over typed constraint list; `feasible = true <-> Forall sat`; permutation and tolerance monotonicity.
* **C07** Linear constraint value is the affine form over all variables: dot product over lists, induction.
* **C08** Exterior penalty vanishes exactly on the feasible set: sum over typed constraints; non-negativity and zero characterisation by induction.
* **C09** Exact (non-smooth) penalty penalises every violated constraint: same for the exact penalty; expected refutation for '>' constraints and theorem for '<','='.
* **C10** Lagrange multiplier updates keep inequality multipliers non-negative: multiplier update transcribed; non-negativity; expected refutation for the upper-bound multipliers.
* **C11** Neighbouring catalogue values are adjacent: max/min over filtered list; adjacency by induction.
* **C12** Discrete admissibility and discrete violation agree: min of distances over a list, tolerances from constants.py.
* **C13** Binary reformulation selects exactly one profile: 0/1 vectors with sum one, induction over the profile list.
* **C14** Potentially active set contains every violated constraint: filter over typed constraints.
* **C15** CONLIN approximation matches value and gradient and is conservative: sum over dimensions of 1-D terms; field + case split on gradient sign; derivative by `derivable_pt_lim`.
* **C16** CONLIN approximation is convex on the positive orthant: 1-D convexity of linear and reciprocal terms, lifted to sums by induction.
* **C17** MMA approximation matches value and gradient and is convex between its asymptotes: same with p/(U-x)+q/(x-L).
* **C18** MMA moving asymptotes always enclose the current point: asymptote update transcribed; invariant over arbitrary iteration histories.
* **C19** MMA sub-problem stays between the asymptotes: bounds transcribed; restricted theorem and refutation for negative asymptotes.
* **C20** Branching loses no admissible point and separates children: node boxes as lists of intervals; split at floor/ceil or catalogue neighbours; coverage, disjointness, cut-off.
* **C21** Branch and bound with an exact relaxation returns the global optimum: work-list transition system with arbitrary selection; invariant "every admissible point better than the incumbent lies in an open node"; partial correctness at termination.
* **C22** Branch-and-bound incumbent only improves: invariant of the same transition system.
* **C23** Branch-and-bound accepts only feasible incumbents: transcribe the acceptance test; theorem for '<' constraints, refutation for '>' and '='.
* **C24** Bound tightening keeps every feasible point: transcribe tightening; soundness for '<=' rows, refutation for others.
* **C25** Iterative solver returns the best feasible iterate: loop as a fold over visited iterates; invariant.
* **C26** A solver step stays inside the variable bounds: clip componentwise.
* **C27** PSO global best never degrades: fold over evaluated particles; invariant.
* **C28** PSO particles stay on the discrete grid within bounds: clamp then arg-min over catalogue.
* **C29** Grid search examines every combination: Cartesian product by recursion; membership, NoDup and minimality.
* **C30** SLP move limits stay inside the variable bounds and contain the iterate: max/min of bounds.
* **C31** Two-phase discretisation window: arg-min index and list slice.
* **C32** Discrete neighbourhood consists of admissible points near the centre: product of slices of catalogues.
* **C33** Linearised constraints reproduce values and slopes: finite differences on affine functions are exact; coefficients by induction.
* **C34** Degree-of-freedom numbering is a bijection: numbering loop with counter; induction over nodes.
* **C35** Global stiffness matrix is symmetric: assembly as fold of scatter-add over elements, entries as functions nat->nat->R.
* **C36** Assembly does not depend on element order: Permutation induction.
* **C37** Assembled strain energy is the sum of element energies: quadratic form of the assembled matrix, induction over elements.
* **C38** Reduced solve satisfies equilibrium and support conditions: free/supported index lists, extraction and scatter.
* **C39** Beam element stiffness is symmetric, positive semi-definite, and free of spurious force under rigid motion: 6x6 matrices as lists; sum-of-squares certificates.
* **C40** Beam element stiffness rank: only rigid motions are stress free: from the sum-of-squares certificate.
* **C41** Coordinate transformation preserves lengths: length rounded to 3 decimals; theorem for exactly rounded lengths, refutation otherwise.
* **C42** Equivalent nodal loads are statically equivalent to the line load: resultants by `field`; refutation for local-x loads.
* **C43** Shape functions interpolate the nodal displacements: N1..N4 at ends; refutation for the wrong term, corrected ones proved.
* **C44** Rod and spring elements transmit equal and opposite forces: 4x4 / 6x6 certificates.
* **C45** Semi-rigid beam element interpolates between hinge and rigid joint: limits by explicit algebra in the fixity factors.
* **C46** Releases take effect whenever they are set: cache as state; refutation by a two-operation history.
* **C47** Nodal load vector is additive over loads and linear in the load factor: load vector as fold of scatter-add.
* **C48** Cross-section classification is monotone and matches EN 1993-1-1 Table 5.2: case analysis with `lra`.
* **C49** Classification accepts epsilon of every steel grade: `sqrt` analysis; refutation for fy < 235.
* **C50** Buckling reduction factor is a proper reduction: `sqrt` algebra.
* **C51** Buckling reduction factor decreases with slenderness and imperfection: monotonicity by algebra on the quadratic equation satisfied by chi.
* **C52** Equivalent uniform moment factor lies between 0.4 and 1: case analysis, `nra`.
* **C53** Equivalent uniform moment factor ignores member orientation: case analysis.
* **C54** Beam-column utilisation is monotone: `nra`.
* **C55** Effective width never exceeds the plate width: `nra`/`field`.
* **C56** Plate buckling factor is continuous in the stress ratio: branch limits evaluated.
* **C57** Shear buckling contribution factor decreases with web slenderness: `nra`.
* **C58** Fire reduction factors interpolate their table: table as list of pairs; generic piecewise-linear interpolation lemmas by induction over the table.
* **C59** Fire reduction factors exist at every temperature: the special temperatures; expected refutation by a missing key.
* **C60** Fire stress-strain law: ellipse branch by `sqrt` algebra.
* **C61** Gas temperature curves increase with time: `ln` / `exp` monotonicity.
* **C62** Thermal elongation never decreases with temperature: quadratic branch monotone on its interval.
* **C63** RHS properties follow its dimensions through any edit history: attribute assignment as operation list; invariant "properties = recompute(dimensions)".
* **C64** RHS area is the exact area of the rounded rectangular ring: area algebra with pi.
* **C65** RHS shear areas sum to the gross area: algebra; expected refutation after construction.
* **C66** Bending resistance reduced by axial force never exceeds the unreduced one and vanishes at full axial utilisation: `nra`.
* **C67** CHS section properties are mutually consistent: `field`, `nra`.
* **C68** Plastic neutral axis of a welded I-section halves the area: three branches, algebra.
* **C69** Elastic neutral axis of a welded I-section is its centroid and the second moment obeys the parallel axis theorem: algebra; minimality by completing the square.
* **C70** Welded section properties follow dimension edits: operation list.
* **C71** ULS combination takes the worst of the two code expressions over every leading action: maximum over list of combinations; fold.
* **C72** SLS combination uses the leading action that maximises the combination: expected refutation plus the theorem about what is returned.
* **C73** Adding favourable-free load never lowers the design value: induction on lists.
* **C74** Wall pressure zones cover the wall: case analysis on e vs d.
* **C75** Peak velocity pressure grows with height and basic wind speed: `ln` monotonicity.
* **C76** Table interpolation stays between the tabulated values: algebra.
* **C77** Charring depth never decreases with fire exposure time: branches; expected refutation at the boundary t = t_f.
* **C78** Adding a load to a frame never discards another: dictionary as association list keyed by names; expected refutation by colliding generated name; theorem for fresh names.
* **C79** Node and member identifiers are unique: counter invariant.
* **C80** A member line load is distributed over the elements without loss: sum of linspace trapezoids by induction on the number of elements.
* **C81** Annual cost repays the investment: geometric series by induction on years.
* **C82** Cost centre cost is non-negative and monotone in work time: `nra`; refutation for very thick plates.
* **C83** Scaling a variable does not change what is written into the structure: algebra on the variable record; refutation for list targets and for scaling twice.
* **C84** A constraint is always evaluated on an analysis of the current design: ghost snapshot of the values at analysis time; coherence invariant by induction over the call history.
* **C85** Linearisation and objectives use an analysis of the current design: same ghost; fresh when the gradient is numerical, refuted when a gradient is supplied and for objectives.
* **C86** The recorded starting point is the first substituted point: induction over the history; refuted for the zero vector.
* **C87** The inverse barrier keeps interior points interior: sum of non-negative terms; explicit distance 1/(R M).
* **C88** The recorded iterate history is the sequence of visited points: heap model of the arrays held by the solver; induction over steps.
* **C89** The SLP sub-problem has the feasible set of affine constraints: composition of the linearisation theorem with the row inequalities.
* **C90** An analysis uses the elements and nodes the model has when it is run: numbering kept by the first analysis; counterexample with an added spring, and stability of an unchanged model.
* **C91** Geometric stiffness follows the sign of the axial force: explicit sum of squares.
* **C92** Second order stiffness satisfies member equilibrium: trigonometric identities; positivity of the denominator below 2 pi by the mean value theorem.
* **C93** Three-dimensional beam stiffness is symmetric, positive semi-definite and free of force under rigid motion: explicit sum of squares for the 12x12 matrix.
* **C94** Reported end forces are in equilibrium with the loads on the element: rows of the stiffness matrix; counterexample with two loads.
* **C95** A changed joint stiffness takes effect: same cache model as C46 with the joint stiffness as the attribute outside the key.
* **C96** Outstand plate buckling coefficient follows Table 4.2: case analysis; refutation at stress ratio 1.
* **C97** Effective width of a plate grows with thickness and with width: composition of the monotonicity lemmas; rho times slenderness is monotone.
* **C98** Web shear resistance: `sqrt` algebra and the shear factor lemmas.
* **C99** Resistance to transverse forces grows with bearing length: the resistance as a minimum of monotone terms.
* **C100** Sway imperfection: `sqrt` bounds.
* **C101** Net heat flux and one heating step follow the temperature difference: fourth-power monotonicity.
* **C102** Steel temperature history: induction over the loop with an invariant on the last temperature.
* **C103** Axial force interaction of welded I-sections uses the code's web share: algebra; the code subtracts the flange areas from one another; expected refutation.
* **C104** The effective area of a welded I-section does not exceed its gross area: model of the effective-plate state; universal counterexample for compact doubly symmetric sections.
* **C105** Plastic section modulus is at least the elastic one: statical theorem: integral of two linear functions over each plate.
* **C106** Paint perimeter is the length of the outline: outline of three plates; expected refutation for I-sections.
* **C107** Shear centre offset and Wagner factor vanish for doubly symmetric sections: algebra; sign of every term; expected refutation of zj.
* **C108** Turning a welded I-section upside down does not change its properties: flip function; three branches.
* **C109** Neutral axes and modulus of a WQ beam: plates as slabs; expected refutation of centroid and modulus.
* **C110** Cross-section class follows the compressed parts: case analysis; expected refutation under tension.
* **C111** Cross-section utilisations are at most one exactly when the code's checks hold: equivalence, case MNRd = 0 included.
* **C112** A square hollow section stays square: edit history; expected refutation after an edit.
* **C113** Accidental combination takes the worst leading action: Model every candidate combination and Python's max; prove the maximum property and that the value equals the factored sum.
* **C114** Area reduction lowers imposed loads by at most 30 percent: Model the clip; prove the bounds per load with Forall2; refute idempotence.
* **C115** Member totals add up the reported loads: Model the accumulation per member with an arbitrary rounding of error at most 0.005; induction over the loads; refute direction z.
* **C116** Wall pressure coefficients follow the table without jumps: Case analysis over the piecewise linear table; Lipschitz bound; refute small walls.
* **C117** Monopitch roof coefficients follow the table without jumps: Case analysis over the piecewise linear table; Lipschitz bound; refute windward coefficients and the pressures.
* **C118** Timber design strength and panel protection move the right way: Case analysis for kmod, division lemmas for strengths, monotonicity of the charring start; refute at 20 mm for dense wood.
* **C119** A load combination contains every load once with its factor: Induction over the cases and loads on top of the invariant of C78 (stored names are digit-free names with numbers below the count).
* **C120** Replacing a combination leaves the others alone: clear as a filter of the applied loads; expected refutation by reuse of numbered names.
* **C121** Local and global positions on a member agree: Linear algebra over sums of any dimension; the direction has unit length.
* **C122** The member angle does not depend on the member's direction: atan and tan from the standard library; symmetry of the quotient.
* **C123** The mesh of a member is a chain between its end nodes: List lemma about consecutive pairs of a chain.
* **C124** The design force is the member force of greatest magnitude: Specification of minimum and maximum of a list; refutation by a jump.
* **C125** Force envelopes hold over all load cases: Fold invariant; refutation by mixed signs.
* **C126** Releasing an end releases that member only: Heap of list objects; invariant that owners have distinct objects; refutation for the default argument.
* **C127** Self-weight is applied once: Iterated calls by induction; refutation.
* **C128** Profile optimisation ends with a sufficient profile: Induction over the profile list with the dictionary of utilisations as state; the sweep by induction on the bound.
* **C129** Members of a group have one profile: Case analysis of the setters; refutation for add_member.
* **C130** The resistance flag covers all load cases: Fold over the dictionary; refutation of the flag.
* **C131** A stepped member load is represented on the safe side: Case analysis; refutations for vertical and right-to-left members.
* **C132** A quote does not depend on earlier quotes: State-passing model of every cost method (exceptions included); overwriting lemma and induction over the history.
* **C133** Cutting cost grows with length and thickness: Speed polynomials are positive and decreasing outside (27.3, 30]; refutation inside.
* **C134** Painting and blasting costs are monotone, painting is additive: Linear formulas.
* **C135** Welding cost grows with weld size and length: Quadratic time formulas; refutation for shallow butt welds.
* **C136** Sawing cost grows with the work: Induction over the ends; refutation of monotonicity in the sawn area.
* **C137** Annual cost moves with investment, interest and life: Through the present value: a sum that falls with interest and grows with years.
* **C138** Plate cost is consistent: Price list abstraction of the workshop, instantiated by C133 to C135; refutations for stale weld cost and thickness classes.
* **C139** Bolts are priced by their size: Fold over the table; the last iteration decides.
* **C140** The bolt length is the shortest one sold: Search in the price table as a recursive function; least stocked length by induction over a sorted table.
* **C141** Changing the size of a bolt equals creating it anew: Bolt record with the setter; equality of records.
* **C142** Shear and tension resistance of a bolt: Formulas over the class and size tables; ordering by cases of the tables, areas bounded by pi > 3.
* **C143** Bearing resistance of a bolt: Nested minima over R; monotonicity of each factor.
* **C144** A utilisation of at most one in combined shear and tension is safe: Linear arithmetic over R; counterexample for the tension part.
* **C145** Block tearing resistance: Linear arithmetic over R.
* **C146** The full-strength weld throat is exactly sufficient: The directional criterion as a separate specification; equivalence with the returned throat.
* **C147** A T-stub fails in the weakest of its three modes: T-stub record, three modes and argmin; minimum and monotonicity.
* **C148** Moving the bolts away from the web never strengthens an inner row: Case analysis on the modes; both plastic modes antitone in m.
* **C149** The effective length belongs to the governing failure mode: T-stub memory as a state machine; fresh after evaluation, counterexample for a changed geometry.
* **C150** Effective lengths of column flange rows: Case analysis on positions; minimum with an infinite value.
* **C151** Resistance of a bolt row: Rows composed from the T-stub and component models; minimum of four and definedness.
* **C152** Effective lengths and resistance of a group of rows: Loops over rows as recursion with the stored distances; telescoping sum by induction on the number of rows.
* **C153** Components act as springs in series: Fold over a list of stiffnesses; induction.
* **C154** The reduction factor for shear in the column web: Piecewise function over R; bounds by the square root; counterexample above 1.5.
* **C155** Column web in compression, tension and shear: Composition of the reduction factors; monotonicity of each.
* **C156** Stiffened column web in compression: Uses the theorems about the buckling curves; monotonicity across the limit slenderness.
* **C157** Stiffness ratio of a joint: Rpower monotonicity.
* **C158** The alpha factor of rows next to a stiffener: Rpower monotonicity; loop invariant for the search.
* **C159** Geometry of a bolt row: Field arithmetic.
* **C160** Intersection of two lines: Cramer's rule for the linear system; uniqueness by elimination.
* **C161** Distance from a line and rotation: Distance as a square completed in the parameter; refuted for directions that are not of unit length.
* **C162** Eccentricity of a gap joint: Intersection of the brace axes computed with the line model and compared with the formula.
* **C163** Strength reduction of high strength chords: Case analysis on the grade limits; refuted for the product with the yield strength.
* **C164** Chord stress function: Minimum form of the function; division lemmas.
* **C165** Resistances of a K gap joint: Resistances against the table formulas written separately; monotonicity of sine on 0 to 90 degrees.
* **C166** Shear and axial force of the chord in the gap: Bounds of square roots; case analysis on the shear ratio.
* **C167** Brace forces of a K gap joint: Lists of equal forces; refuted for the tension force and the chord force in the gap.
* **C168** Resistances of Y joints and the chord stress: Real powers; refuted for the effect of the chord stress.
* **C169** Utilisation of Y joints: Linear interpolation compared with the one of the code of practice; refuted; a brace wider than the chord gives a negative utilisation.
* **C170** Side wall strength of Y joints: Reduction factor for all slendernesses; refuted for stocky chords and for new joints.
* **C171** X joints against Y joints: Case analysis; refuted for braces in compression and for flat braces.
* **C172** Sections and force envelopes of a steel member: Dictionary as association list with last-write semantics; induction over the history of calls.
* **C173** Euler load, slenderness and buckling strength of a member: Buckling curve lemma of the EC3 area; strength antitone in the length.
* **C174** Torsional buckling in the design of a member: Concrete member with a small torsional critical load: refuted; bound on the strength itself.
* **C175** Lateral torsional buckling strength of a member: Larger root of the quadratic for the reduction factor; monotone in slenderness, both methods.
* **C176** Elastic critical moment: Quadratic equation and monotonicity of sqrt(b+x^2)-x; refuted for monosymmetric sections (load level ignored).
* **C177** Critical moment of a cantilever: Sign of the fitted coefficients over the range of K; C176.
* **C178** Section check of a member: Induction over the keys with the profile forces as state; permutation.
* **C179** Buckling check of a member: Case analysis with C173.
* **C180** Interaction of compression and bending: Interaction formula; refuted: raises with lateral torsional buckling; negative factor for stocky members.
* **C181** Equivalent uniform moment factor of a member: Case analysis over the dictionary; refuted after clear_sections.
* **C182** Design of a member: Composition of the checks; refuted: history dependence, raises with lateral torsional buckling.
* **C183** Shear stiffness, weight and cost of a member: Real algebra.
* **C184** Cross-section resistances are those of EN 1993-1-1: Algebra with sqrt 3.
* **C185** Interaction factors are those of EN 1993-1-1 Annex B: Case analysis on the class; minimum and maximum of affine functions. Finding: for classes 3 and 4 the code limits the slenderness, not 0.6 times the slenderness.
* **C186** Timber sections shrink in fire: Sections_timber charring modelled over the reals on top of d_char_n (C-loads area); exact dimensions and monotonicity in time.
* **C187** Protection boards are set up consistently: boards as data, prepare/assign functions; exhaustive over grades and boards, all gaps.
* **C188** Strength classes are physically consistent: grade table as a function; pairwise comparisons over the class lists.
* **C189** Size factors never make a larger member weaker: k_h and k_L with Rpower; monotonicity of size times factor.
* **C190** Heights of tapered beams: piecewise linear height functions; exact end values and bounds.
* **C191** Heights of curved beams: arc functions with sqrt; points of the arc by their angle, tangent inequality cos(t-b).
* **C192** Buckling segments partition the member: sorting by insertion; permutation and telescoping sum.
* **C193** The buckling factor of timber columns: quadratic whose larger root is 1/k_c.
* **C194** The lateral buckling factor of timber beams: piecewise factor, Euler-type bound.
* **C195** Torsional stress of rectangles: table as nested ifs; bounds and counterexamples.
* **C196** Section checks of timber members are those of EN 1995-1-1: stress functions against independent EN expressions.
* **C197** Shear reduction near supports: index arithmetic with Python's negative indices; induction on the search.
* **C198** Member buckling checks of timber members: maximum over sections and segments.
* **C199** The verdict of a timber member: maximum of lists; equivalence of verdicts.
* **C200** Apex factors of timber beams: equality with independently written EN expressions.
* **C201** Apex moment: folds over the locations.
* **C202** Bracing forces and bearing stress: exact results and counterexamples.
* **C203** Equivalent moment factors are those of EN 1993-1-1 Table B.3: case analysis against an independently written table.
* **C204** Thermal properties of steel are those of EN 1993-1-2: exact values per branch.
* **C205** Loads enter a combiner with the factors of EN 1990: exact results of add_load against a table written from the standard.
* **C206** Area reduction of imposed loads: exact value in three cases, Forall2 over the loads.
* **C207** Wind zones, terrain and velocities are those of EN 1991-1-4: exact values in each case.
* **C208** Timber tables and the charring depth: tables and exact values in each phase.
* **C209** SLSQP and COBYLA get exactly the constraints of the problem: Constraint translation as functions over arbitrary problems; equivalence of feasible sets by induction over the constraint list (Heur_model, Heur_proofs).
* **C210** The trust-region solver gets exactly the constraints of the problem: Same for the limits of trust-constr; counterexample with a locked variable.
* **C211** LP and MILP solvers solve the given problem: Rows and variables of LP/MILP; equivalence under stated restrictions, counterexamples outside.
* **C212** MISLP sub-problem ranges, rows and selections: Range of each variable by case analysis, selection by induction over catalogues, rounding from exact nearest rounding.
* **C213** Ant colony: probabilities, pheromones and best design: Matrices as lists; updates by induction over ants; loop invariant "best of the ants seen".
* **C214** Genetic algorithm: best design, penalty and cache: Invariant of the evaluation sequence; idempotence of clamp-then-round for the cache.
* **C215** Discrete VNS accepts only feasible improvements: Invariant of the accepted sequence by induction over actions.
* **C216** VNS neighbourhoods and acceptance: Case analysis of ranges; induction over results of the inner solver.
* **C217** Steepest descent decreases the objective: Norm algebra; invariant of the history by induction over iterations.
* **C218** Augmented Lagrangian method: multipliers and optimality: Invariant of the loop; saddle-point argument for the fixed point.
* **C219** Variable groups create one variable per attribute: Induction over the zipped lists.
* **C220** Workshop prices follow the cost data: Closed forms; induction over the sawn ends.
* **C221** Load case ids, sweeps and fresh members: Induction over the loads and the history.
* **C222** Section properties of an open profile are the area integrals they stand for: Walls as segments with affine parametrisation; antiderivatives along each segment (MVT) and sums by induction on the segments.
* **C223** Moving, turning or renumbering an open profile does not change the section: Bilinear moment forms on node functions; isometries keep wall areas; sectorial coordinates characterised uniquely along the chain.
* **C224** Splitting a wall of an open profile changes no section property, but torsion then fails: The moment form is unchanged by inserting a point on a wall; lengths of the arrays for the failure.
* **C225** The shear centre is the pole with vanishing sectorial products and the warping constant is minimal there: Transport formula of sectorial constants, Cauchy-Schwarz for the central form.
* **C226** Symmetric open profiles have centroid and shear centre on the axis of symmetry: Reversal and mirroring of the chain combined with the uniqueness of the shear centre.
* **C227** Open-profile properties scale with the unit of length, until the shear centre is lost: Homogeneity of each sum; explicit unit below the threshold.
* **C228** Average yield strength and corner geometry of cold-formed sections: Direct computation; tan - sin is increasing by the double-angle formulas; unboundedness by atan; induction on the lists of corners.
* **C229** Distortional buckling and axial resistance of cold-formed members: Case analysis on the three ranges; cube roots characterised by their cubes.
* **C230** Web crippling resistance of a single web: The coefficient is factored into positive factors, compared with an independently written Eurocode formula; products of inequalities.
* **C231** Web crippling resistance of sheeting: The closed formula is extracted once; monotonicity of the product; case analysis on the force ratio.
* **C232** Self-tapping screws: Case analysis on thicknesses, linear interpolation; table by enumeration.
* **C233** Restraint by sheeting and geometry of trapezoidal sheets: Monotonicity of each factor (powers, square roots), product of inequalities; trigonometric inequalities for the sheet.
* **C234** Sloped roof trusses have the member count of a statically determinate truss: lengths of the node lists per configuration, then linear arithmetic; duplicates by keys of the brace lists.
* **C235** A generated symmetric roof truss is stable on its own supports: trusses built by adding nodes with two non-collinear members (zig-zag, fan and column invariants); explicit motion for the refutation.
* **C236** Nodes of symmetric roof trusses lie on the roof line and are mirror images: closed forms of the coordinates per configuration; mirror symmetry by index reversal.
* **C237** Bottom chord nodes of roof trusses are evenly spaced: closed forms of the coordinates.
* **C238** Joints are made for every node of a roof truss by the number of braces: exact sets of braces per node; induction over the node loop.
* **C239** The ridge joint of a symmetric roof truss is found: fold characterisation, uniqueness of the middle node, brace sets at the ridge.
* **C240** Zone loads load every chord member with the value of its zone: case analysis of the boundaries; exact intensities in the failing cases.
* **C241** Heights and slope of a sloped truss agree: case analysis and tan(atan x)=x.
* **C242** Rolled I-sections: properties of the plates and fillets: Compare the closed formulas with integrals over the plates and with squares less quarter discs for the fillets; bound the decimal terms with pi between 3.14159 and 3.1416.
* **C243** Exact properties of tubes, welded I and WQ sections: Compare each formula with an independently written one; case analysis at the breakpoints.
* **C244** Concrete data, creep coefficient and self weights: Bounds of x^0.3 through tenth powers; closed form of Annex B; monotone factors.
* **C245** Elastic stiffness of composite beams: Closed forms by field; strict inequalities of fractions.
* **C246** Plastic moment of composite beams: Stress blocks of flange and web as specification; unique axis by case analysis; exact gap by field.
* **C247** Concrete core and rebars of filled tubes: Compare with the rounded rectangle of Sections_spec by field.
* **C248** Axial resistance of filled tubes: Creep bounds, chain to the buckling curve lemmas of EC3_proofs.
* **C249** Plastic moment of filled tubes: Equilibrium and moment of stress blocks by field; counterexample with numbers.
* **C250** Second order moment and utilisation of filled tubes: Case analysis on NEd against Ncr,eff and NplRd.
* **C251** Fastener group factor of diaphragms: Induction for sums of odd and even cubes, then polynomial inequalities.
* **C252** Table of sheet distortion: Index of the class from the bounds of the ratio, table facts by exhaustive computation over the finite table.
* **C253** Shear strengths of diaphragms: Closed form extracted; floor is monotone; counterexample with numbers.
* **C254** Shear flexibility of diaphragms: Closed form; each term monotone.
* **C255** Sandwich panels and their screws: Quadratic form: completing the square (Schur complement); envelope argument for monotonicity; case analysis at 0.7.
* **C256** CLT slabs: Induction over the sequence of slabs; first moment of a reversed stack.
* **C257** Plastic truss LP: Sizing_model (lp_data, lp_rows, lp_feasible); feasible set equals the plastic designs of Sizing_spec; optimum by packing any design into a point.
* **C258** Profile selection MILP: Sizing_model (mi_data, mi_rows, mi_feasible); big-M rows with exact bounds of the elongation; soundness, completeness and optimality for one load case; two findings.
* **C259** Statics matrix: Sizing_model (statics_full, statics); entries, elongation and stiffness by sums over distinct indices.
* **C260** Truss constraints: Sizing_model constraints; equivalences with the limits; findings by explicit members.
* **C261** Scaling a truss design: Sizing_model (mu_U, mu_L, scale_design); least factor by the extremum lemmas of the folds; linear response of truss_K; finding by an explicit design.
* **C262** Fully stressed design: Sizing_model (fsd); last write wins, by induction over members, variables and load cases; findings by explicit trusses.
* **C263** Frame member frame of reference: model the member geometry over exact reals; trigonometry of atan for the angle
* **C264** Intersection point of two member lines: determinant argument: common point exists and is unique iff the determinant is not zero; rounding error bound
* **C265** Points on members and nodes at crossings: soundness and completeness of the point test; crossing theorem under the decimal restriction (partial) and a counterexample
* **C266** Node coordinates of a member: stable insertion sort permutation and order; collinearity gives the length sum; rounding bound and counterexample
* **C267** Finite element nodes are shared: induction over members and coordinates with the invariant that node coordinates are distinct
* **C268** Elements of a member: index-wise characterisation of the element list; counterexample family for bars
* **C269** Force and displacement envelopes of a frame member: fold invariants for the maxima; jump-free restriction (partial) and counterexample families
* **C270** Loads on frame members: sum over elements by induction; counterexamples for unequal lengths, factor and rounding
* **C271** Generated storey frames: run lemma per bay line by induction, refinement to the grid
* **C272** Joint stiffness of beams: case analysis of the clamp
* **C273** Profile selection of frame members: induction over profiles and sweeps; counterexample with two members
* **C274** Location of truss joints: Model the getter, setter and end adjustment over the rounding function; prove read-after-write, clamping and the mirror effect of reversed joints.
* **C275** Angle between web and chord: Model the angle as the minimum of two absolute differences; case analysis against the acute angle.
* **C276** Eccentricity and gap of K joints: State machine of geometry changes and assignments; invariant by induction over the sequence.
* **C277** Nodes of K joints: Coordinates along and across the chord; compute intersections and distances in that frame.
* **C278** Geometric constraints of tube joints: Translate each constraint value into its inequality; conjunction equals the range of validity.
* **C279** Strength constraints of tube joints: Equivalence with inequalities; counterexamples for compression and for the order of webs.
* **C280** Member constraints of the structural problem: Equivalences by maximum and minimum lemmas; counterexamples for the last node and hogging.
* **C281** Group constraints: Induction over the iterated list two entries at a time; counting of joint constraints.
* **C282** Variables of the structural problem: Folding over groups; position-wise completeness and a mixed counterexample.
* **C283** Fin plate joints: bolts in shear: Elastic bolt group as independent specification (positions, polar moment by induction over rows); show the corner bolt governs and compare with the closed formula.
* **C284** Fin plate joints: bearing: Same bolt group; quadratic interaction for each bolt.
* **C285** Fin plate joints: plate and web resistances: Algebra against the general block tearing and shear formulas; bounds on the square root of 3; reduction factor bounds.
* **C286** Fin plate joints: edge distances: Algebra; case analysis of the chain of tests.
* **C287** Bolt row forces of an end plate joint respect every row, group and compression limit: Model the three loops of bending_resistance on a list of rows with stored forces; invariants: every step only lowers forces, a group's sum is bounded right after its step and stays so; exact sums by clipping; recomputation by showing the loops forget stored forces of tension rows.
* **C288** Moment resistance of an end plate joint is the largest plastic moment when the groups are nested and listed by size: Prefix sums of the forces are the largest possible after every group (invariant over the list of groups), then Abel summation with falling lever arms; two concrete group orders with different moments.
* **C289** Shear rows do not take part in the moment resistance of an end plate joint: Split the final sum into tension and shear rows; new rows store -1.
* **C290** Column web panel shear resistance of an end plate joint: Closed form of V_wp_Rd against the formulas of EN 1993-1-8 6.2.6.1 written separately.
* **C291** Compression resistance of an end plate joint and the effect of a stiffener: Unfold Fcom_Rd; the plate of add_stiffener has no khp; compare effective areas for stocky stiffeners.
* **C292** Equivalent bolt row and initial stiffness of an end plate joint: Weighted mean bounds by induction over rows; Cauchy-Schwarz; closed form of Sj_ini; case of one tension row.
* **C293** Rotational stiffness of an end plate joint: Closed form and monotonicity of the stiffness ratio.
* **C294** Shear resistance of an end plate joint: Induction over rows for the new and for the evaluated joint.
* **C295** Dimensions of an end plate joint after assignments: Induction over the sequence of assignments.
* **C296** Notional widths and corner data of a cold-formed section: Real algebra with the values of tan and sin at 45 degrees.
* **C297** Area of a cold-formed section from its polyline: Named nodes, the length of four chords per quarter circle, bounds of the sine.
* **C298** Centroid of a cold-formed section with equal flanges: Sum of first moments over the named nodes, angles folded to one quarter.
* **C299** Average yield strength and tension resistance of a cold-formed section: Algebra on min; the area from C297.
* **C300** Z sections in compression: Threshold from the Winter curve; polyline sum of the split profile.
* **C301** Effective area of a C section in compression: Polyline sums of the changed node list for every case of slender parts.
* **C302** Compression resistance of a cold-formed section: Composition of the effective section with the resistance rule.
* **C303** Spring stiffness of an edge stiffener and distortional buckling: Formula and monotonicity of the quotient.
* **C304** Lateral springs of cold-formed purlins and standard Z sections: Formula; springs in series; case analysis of the table.
* **C305** The name of a rectangular tube gives its dimensions: Lemmas on greedy prefixes, one number, repetition and findall with fuel; decimal writing from the standard library.
* **C306** The name of an I section gives its entry in the catalogue: Words of a name by induction; int of str is the identity; look-up.
* **C307** Which profile lists of the member design can be made: Computation over the tables inside universally quantified membership statements.
* **C308** Sections outside the catalogue are real sections: Case analysis of the pieces with linear arithmetic; integer form of the fit computed over the table.
* **C309** The argument catalogue of the constructors of I sections: Case analysis with the look-up lemmas.
* **C310** The section tables agree with each other: Boolean checks proved sound, computed over the tables; parsing of short names inverted for all numbers.
* **C311** Section properties from the formulas module: Ring identities; polynomial inequalities with bounds of pi.
* **C312** The material tables agree with each other: Boolean agreement proved sound, computed over the tables.
* **C313** Vierendeel truss geometry: Nodes, chords and braces modelled as lists over linspace; positions and members characterised by index.
* **C314** Vierendeel truss is stable on its own supports: Rigid-jointed members as first-order rigid motions; induction along the bottom chord, then the braces.
* **C315** Vierendeel joints: The member loops with early exit modelled; joints characterised for every node by splitting the chain of members.
* **C316** Vierendeel weight: Sums over members with equal lengths.
* **C317** No load of a Vierendeel truss is lost: Dictionary of loads with renaming; invariant that stored names are kept apart although bases end in digits.
* **C318** Every load of a portal truss reaches the analysis once: Two frames with load tables; invariant relating them; multiset of analysis loads by induction over the history.
* **C319** Column loads of a portal truss may come in any order: Same invariant; the case table has no entry for an id first seen in a column call.
* **C320** Ridge height of a portal truss: tan and atan inverse; the three ways to give the shape.
* **C321** Nodes of the chord next to the column: tan and cos of the member angle in terms of coordinates; counterexamples for falling chords.
* **C322** The variables of the truss MILP are laid out without gaps and each index refers to its variable: Model of create_milp as a list of variables and rows of a linear program; positions by induction over the loops.
* **C323** A feasible point of the truss MILP is an elastic truss design, every truss design is a feasible point, and the optimum is the lightest design: Each block of rows characterised by an if-and-only-if; big-M argument for the forces; converse by constructing the point.
* **C324** Scaling of the truss MILP leaves the limits unchanged: Specialisation to factors 1; counterexamples with the factors of the example in the file and with the default bounds.
* **C325** The truss MILP treats all load cases alike: Row characterisation for each load case; explicit feasible point with a wrong force in the second case.
* **C326** The topology constraints of the truss MILP keep the members and nodes consistent: Row characterisation for the topology rows; explicit counterexamples.
* **C327** Members of a group get the same profile in the truss MILP: Group rows imply equal selections; counterexample for sizing.
* **C328** Class of a rolled I-section: Section Secls: parts as options, class_of as the choice by the forces; compare with table_class for alpha by equilibrium of the web and psi by edge stresses; hogging moments refuted by an example.
* **C329** Classes of a rolled I-section are ordered: Monotone limits of Table 5.2 in alpha and psi, alpha and psi monotone in the axial force; hogging refuted.
* **C330** Class of a rectangular hollow section: Parts against table_class; combined web is a constant, refuted by a slender web.
* **C331** Class of a circular hollow section: Wall class against tube_class; exact set of forces on which the call raises.
* **C332** Class of a welded I-section in compression or bending: Parts against table_class; the share of the web in bending solved from the neutral axis; the divisor without the throat refuted by an example at the border.
* **C333** Class of a welded section in bending and compression: Value of the share used, sign of its dependence on the axial force, example with the class of neither pure state.
* **C334** Class of a WQ beam: Parts against table_class; the ratio used is the negative of the edge stress ratio, so the class is on the safe side; equality refuted.
* **C335** Buckling curves and compression flange of rolled I-sections: Table 6.2 as an inductive relation; compressed flange from the decomposition of area and second moment.
* **C336** Effective section of a welded I-section that is not slender: The first pass is a fixed point of the iteration: ratio -1, no ineffective web.
* **C337** Shear buckling resistance of a welded I-section: Closed form against EN 1993-1-5 written separately; monotonicity, lower bound and domain by algebra; cap and large axial forces refuted by examples.
* **C338** Symmetry pairs of nodes: Model the double loop over nodes with the first-match rule; loop invariant (sound, backward pairs, done below k) by induction; transitivity invariant for mutuality; counterexample with a chain inside the tolerance.
* **C339** Default axis and repeated symmetry detection: Default axis from the extreme coordinates; each node is settled after its iteration, hence a second pass is the identity; counterexample with a node moved after pairing.
* **C340** Symmetry pairs of members: Model the loop with the visited list; mirrored member of a two-node member is unique and the relation symmetric; invariant over the outer loop, single-match lemma for the inner loop.
* **C341** Symmetric members have the same profile: Model both setters and the sweep; induction over the assignments and over the sweep with the explored list; counterexamples for multi-span members.
* **C342** Length, points and finite element nodes of multi-span members: Triangle inequality by induction over the spans; exact values along a ray; induction for the finite element nodes; bent counterexample.
* **C343** Profile search of groups and multi-span members: Model the search with the ineffective inner continue; induction over the profile list with the stored utilizations; slender counterexample.
* **C344** Moving a node: Model arrays of whole numbers and of numbers, setter and refresh of members; exact points and lengths; truncation bounds.
* **C345** Angle between brace and chord of a tubular truss joint: Model brace_angle by acos of the dot product and the line intersection of Rhs_model; prove cosine and sine are the absolute dot and cross products, hence the acute angle; solve the 2 by 2 system for the face point.
* **C346** Gap of a K joint of a tubular truss: Gap formula rewritten as a sum of cotangents; compare with the distance of the face points; inverse and monotone in the eccentricity.
* **C347** Moving the intersection point of a K joint: Joints as a map of records, assignments as a fold; invariants by induction over the sequence of assignments; ridge cases as refutations.
* **C348** Symmetric joints of a truss: Search through the list by induction; uniqueness of joints per node gives exactness and mutuality; counterexample with two joints at a node.
* **C349** Forces used in the design of tubular truss joints: Selection of forces and resistances over Rhs_model; exact value of the Y design, monotonicity of the stress factor; counterexample for the signed shear maximum.
* **C350** Weld length of a brace of a tubular truss: Monotonicity of the sine on (0, 90].
* **C351** The eccentricity problem of a tubular truss has the gaps and vertical braces it promises: Model the variables, constraints and objective of minimize_eccentricity over the tubular joint model of C345-C350; prove equivalences with the geometry; refute at the ridge.
* **C352** Resistance of a shear stud: Model ShearStud.PRd; compare with the formula of the standard written apart; monotonicity; refutations.
* **C353** Stress-strain relation of stainless steel in fire: Model both branches with exact powers and roots; mean value theorem for the lower branch, square bounds for the upper one; interpolated table values for the temperatures.
* **C354** Combiner results list the loads of the governing combination member by member: Model the filing of loads under ids with list updates; invariant of the filing loop by induction; link to the combinations of C71, C72, C113.
* **C355** Individuals of the genetic algorithm hold one value per variable within its bounds and new populations contain every offspring and the best design: Model the shared call counter, genes and individuals as functions of it and of the random numbers; induction over genes and individuals; offspring as references into a store.
* **C356** Numerical gradients and convex sub-problems agree with the functions they replace: Asm_model: forward differences, constraints as linear or as functions of stored values and vector, sub-problems, owner of linear constraints. Taylor bound by the mean value theorem; values and gradients from the Approx area.
* **C357** Random designs are allowed, and random feasible points satisfy the less-than constraints only: Rst_model: draws as functions of numbers in [0,1); nearest allowed value; search over a sequence of draws with fuel. Induction on fuel.
* **C358** The stopping criterion is a relative change of the design or of the objective: Rst_model: norms and the two criteria; scaling and entry bound by algebra of sums of squares.
* **C359** Particle swarm runs end in time and stay inside the bounds: Swarm_model: counters of a run as a state machine over an arbitrary improvement sequence; one coordinate of a particle. Invariants by induction on generations.
* **C360** Buckling strength and restraint stiffness of cold-formed members: CfMem_model: slenderness, reduction factor and required stiffness; refinement to the reduction factor of the EC3 area.
* **C361** Plastic moduli of WQ beams: Wqp_model: moduli and painted length as written; equality with integrals over slabs of constant width, minimality by convexity per slab.
* **C362** Registration of variables and constraints of a problem: Reg_model: lists of registered names and owner flags, operations as state transformers; induction over operation sequences.
* **C363** Relaxations and optimality-based tightening in branch and bound: Bnb2_model: locking pass, reduced start, reassembly and unlocking with the solver as parameter; tightening loop with the linear-programming solver as parameter, exactness as hypothesis; induction over variables.
* **C364** Effective stiffness of a bolt row: Brk_model: effective lengths of a row with the remembered distances as state, minimum over groups, stiffness factors; minima over lists, monotonicity of sums of reciprocals.
* **C365** Governing sections of the segments of a timber member: Tseg_model: first section at a location, maximum by key and by lexicographic order per segment; induction over lists, refinement to sets of sections.
* **C366** Wind zones and pressures of flat roofs: Wfr_model: zones with sizes, coefficients and pressures; case analysis over the position of a point, logarithmic interpolation in the specification.
* **C367** Feasible end plate geometry: Model the variables, bounds, linear constraints and substitution; reduce each constraint to a difference of two coordinates (indicator sums over the variable list) and prove the equivalence by induction over rows; counterexamples for fixed extension, fixed width, stale edge distance and flush plates.
* **C368** Strength checks in the apex zone of timber beams: Model the checks on top of the timber model (apex factors, nearest sections, section shifts); reduce the apex stress to the apex moment of C201 with stresses in place of moments; prove which sections the shear check uses by the invariants of the shift loops; counterexamples for signs, loads and mirroring.
* **C369** The load cases of a frame in the analysis: Lan_model: generate_fem and structural_analysis over the frame of Raami_model. An invariant (ids of stored loads are load case ids, load case ids are distinct and equal the known ids) is proved for every sequence of operations by induction; the columns of the analysis are then a partition of the stored loads.
* **C370** Resistance and stiffness requirements of end plate optimisation: Epr_model: options dictionary with mutation, constraint functions over the responses of the joint. Acceptance is proved equivalent to the requirements in the user's units by linear arithmetic and case analysis over the options; findings for all inputs.
* **C371** Compression of timber perpendicular to the grain at contacts: Tpc_model: contact stresses, search for the critical node and the loop for kc90, with the factor kept on the object as state. By induction over the nodes the result is characterised exactly; findings for all inputs that meet the stated conditions.
* **C372** Incremental analysis: what it leaves behind, and mode shapes: Soe_model.v: the increments as a fold over a state of loads and coordinates, the inverse stiffness an arbitrary matrix; distribution of a mode as a fold over (value, degree of freedom) pairs. Induction over increments and over the pairs.
* **C373** Export of a frame to Abaqus: Abq_model.v: the data of the input file (node and element lines, sets with rows, releases, nodes held out of plane, monitored nodes, supports) as lists computed by the loops of to_abaqus; file text, sections and materials are not modelled. Induction over the loops; argsort by permutation and sortedness.
* **C374** The outline of a hollow section exported to Abaqus follows the wall: Model the function generating the outline with its corner points over the reals; prove that points are the images of a quarter under the mirror symmetries, compute the length from the chord formula and bound the sine.
* **C375** Variables are created with the target they name and write exactly to it: Model arguments with their truth values, the creation of variables with arguments by position, and substitution on a store of members and sections; prove frame conditions by induction over the objects of the target and ownership of sections by induction over the copies.
* **C376** The report of a solution lists the largest constraints: Model the evaluation, the slice, the sort of pairs and the reversal; the partial sort is an argument with its contract as a hypothesis. Permutation and sortedness of insertion sort, counting by NoDup_incl_length.
* **C377** The two-phase solver hands over between its solvers: Model the constructor's test, the reduction of lists of values (using the window of C31) and the options passed on; induction over the variables and properties of slices of ascending lists.
* **C378** Line loads by class of element: Model the loop over the loads with the call made to each class of element, and the loads of a rod; induction over the loads, field arithmetic for rods.
