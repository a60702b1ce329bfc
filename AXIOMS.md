# Axioms per theorem (tools/axioms.py)

* A1 = `ClassicalDedekindReals.sig_forall_dec`
* A2 = `ClassicalDedekindReals.sig_not_dec`
* A3 = `Classical_Prop.classic`
* A4 = `FunctionalExtensionality.functional_extensionality_dep`

| theorem | file | axioms |
|---|---|---|
| C40_screening_functions | PropertiesCollision.v | A2, A1, A4, A3 |
| C40_lenz_jensen_refuted | PropertiesCollision.v | A2, A1, A4, A3 |
| C41_newton_derivative_screened_partial | PropertiesCollision.v | A2, A1, A4, A3 |
| C41_lennard_jones_derivative_partial | PropertiesCollision.v | A2, A1, A4, A3 |
| C41_newton_variable_lennard_jones_refuted | PropertiesCollision.v | A2, A1, A4, A3 |
| C41_morse_refuted | PropertiesCollision.v | A2, A1, A4, A3 |
| C41_singularity_free_refuted | PropertiesCollision.v | A2, A1, A4, A3 |
| C42_roots_are_turning_points_partial | PropertiesCollision.v | A2, A1, A4, A3 |
| C42_potential_exists | PropertiesCollision.v | A2, A1, A4, A3 |
| C42_four_eight_refuted | PropertiesCollision.v | A2, A1, A4, A3 |
| C43_polynomial_roots_are_turning_points | PropertiesCollision.v | A2, A1, A4, A3 |
| C43_zero_is_not_a_root | PropertiesCollision.v | A2, A1, A4, A3 |
| C44_coulomb_turning_point | PropertiesCollision.v | A2, A1, A4, A3 |
| C45_newton_reports_only_converged_iterates | PropertiesCollision.v | none |
| C45_newton_converges | PropertiesCollision.v | A2, A1, A4, A3 |
| C46_head_on_high_energy_partial | PropertiesCollision.v | A2, A1, A4, A3 |
| C46_head_on_low_energy_refuted | PropertiesCollision.v | none |
| C47_crossing_point | PropertiesCollision.v | A2, A1, A4, A3 |
| C48_no_potential_no_deflection | PropertiesCollision.v | A2, A1, A4, A3 |
| C77_gauss_mehler_angle | PropertiesCollision.v | A2, A1, A4, A3 |
| C78_newton_lennard_jones_refuted | PropertiesCollision.v | A2, A1, A4, A3 |
| C79_reported_point_usable_partial | PropertiesCollision.v | A2, A1, A4, A3 |
| C79_reported_point_usable_refuted | PropertiesCollision.v | A2, A1, A4, A3 |
| C79_negative_radicand_panics | PropertiesCollision.v | none |
| C32_half_space_is_nested | PropertiesGeometry.v | A2, A1, A4, A3 |
| C32_layered_target_is_nested | PropertiesGeometry.v | A2, A1, A4, A3 |
| C32_sphere_is_nested | PropertiesGeometry.v | A2, A1, A4, A3 |
| C32_ball_is_nested | PropertiesGeometry.v | A2, A1, A4, A3 |
| C32_inside_2D_is_inside_barrier | PropertiesGeometry.v | none |
| C33_layer_lookup_is_total_and_unambiguous | PropertiesGeometry.v | A2, A1, A4, A3 |
| C33_layers_tile_the_target | PropertiesGeometry.v | A2, A1, A4, A3 |
| C76_refuted_top_surface_uses_the_bottom_layer | PropertiesGeometry.v | A2, A1, A4, A3 |
| C76_below_the_surface_it_is_the_top_layer_partial | PropertiesGeometry.v | A2, A1, A4, A3 |
| C34_refuted_short_ck_list_drops_layers | PropertiesGeometry.v | A2, A1, A4, A3 |
| C34_mesh_keeps_every_layer_partial | PropertiesGeometry.v | A2, A1, A4, A3 |
| C35_closest_point_half_space | PropertiesGeometry.v | A2, A1, A4, A3 |
| C35_closest_point_layers | PropertiesGeometry.v | A2, A1, A4, A3 |
| C35_closest_point_sphere | PropertiesGeometry.v | A2, A1, A4, A3 |
| C36_triangle_containment_is_containment | PropertiesGeometry.v | A2, A1, A4, A3 |
| C37_triangle_distance_is_the_distance_to_its_outline | PropertiesGeometry.v | A2, A1, A4, A3 |
| C37_triangle_distance_panics_exactly_on_zero_length_sides | PropertiesGeometry.v | A2, A1, A4, A3 |
| C38_inside_lookup | PropertiesGeometry.v | A2, A1, A4, A3 |
| C38_outside_lookup_is_a_nearest_cell | PropertiesGeometry.v | A2, A1, A4, A3 |
| C39_concentrations_are_a_probability_vector | PropertiesGeometry.v | A2, A1, A4, A3 |
| C49_lookups_in_range_partial | PropertiesInput.v | none |
| C49_hdf5_refuted | PropertiesInput.v | none |
| C50_implemented_combinations_partial | PropertiesInput.v | none |
| C50_every_collision_panics_refuted | PropertiesInput.v | none |
| C50_lenz_jensen_magic_refuted | PropertiesInput.v | none |
| C50_unimplemented_accepted_refuted | PropertiesInput.v | none |
| C51_checked_lengths_partial | PropertiesInput.v | none |
| C51_cutoff_energies_refuted | PropertiesInput.v | none |
| C51_displacement_energies_refuted | PropertiesInput.v | none |
| C51_interaction_indices_refuted | PropertiesInput.v | none |
| C52_particles_as_requested | PropertiesInput.v | none |
| C53_weight_and_tag_refuted | PropertiesInput.v | none |
| C53_toml_particles_partial | PropertiesInput.v | none |
| C61_default_options_partial | PropertiesInput.v | none |
| C61_distributions_build_refuted | PropertiesInput.v | none |
| C73_directions_partial | PropertiesInput.v | A2, A1, A4, A3 |
| C73_hdf5_build_refuted | PropertiesInput.v | none |
| C80_root_finder_option_ignored_refuted | PropertiesInput.v | none |
| C80_root_finder_option_used_partial | PropertiesInput.v | none |
| C07_refuted_parallel_ion_never_ends | PropertiesKinematics.v | A2, A1, A4, A3 |
| C07_outward_ion_leaves_partial | PropertiesKinematics.v | A2, A1, A4, A3 |
| C07_results_do_not_depend_on_fuel_partial | PropertiesKinematics.v | none |
| C08_energies_never_negative | PropertiesKinematics.v | A2, A1, A4, A3 |
| C08_energies_never_negative_in_flight | PropertiesKinematics.v | A2, A1, A4, A3 |
| C09_recoil_energy_between_zero_and_kinematic_maximum | PropertiesKinematics.v | A2, A1, A4, A3 |
| C10_collision_conserves_energy_and_momentum | PropertiesKinematics.v | A2, A1, A4, A3 |
| C10_reported_angles_conserve_momentum | PropertiesKinematics.v | A2, A1, A4, A3 |
| C69_collision_energy_bookkeeping | PropertiesKinematics.v | A2, A1, A4, A3 |
| C11_laboratory_angles | PropertiesKinematics.v | A2, A1, A4, A3 |
| C12_rotate_turns_by_psi | PropertiesKinematics.v | A2, A1, A4, A3 |
| C13_refuted_rotation_onto_the_axis | PropertiesKinematics.v | A2, A1, A4, A3 |
| C13_generic_deflections_stay_off_axis_partial | PropertiesKinematics.v | A2, A1, A4, A3 |
| C14_refuted_offset_not_perpendicular | PropertiesKinematics.v | A2, A1, A4, A3 |
| C14_partner_position_partial | PropertiesKinematics.v | A2, A1, A4, A3 |
| C15_displacement_of_a_step | PropertiesKinematics.v | A2, A1, A4, A3 |
| C15_flight_direction_is_the_direction_before_the_collision | PropertiesKinematics.v | A2, A1, A4, A3 |
| C15_path_lengths_telescope | PropertiesKinematics.v | A2, A1, A4, A3 |
| C16_surface_refraction_is_exact | PropertiesKinematics.v | A2, A1, A4, A3 |
| C17_in_and_out_restores_the_particle | PropertiesKinematics.v | A2, A1, A4, A3 |
| C18_barrier_decides_by_normal_energy | PropertiesKinematics.v | A2, A1, A4, A3 |
| C18_entering_the_barrier | PropertiesKinematics.v | A2, A1, A4, A3 |
| C18_no_crossing_no_change | PropertiesKinematics.v | A2, A1, A4, A3 |
| C19_refuted_reflected_particle_moves_on_outwards | PropertiesKinematics.v | A2, A1, A4, A3 |
| C19_reflected_direction_points_to_the_material_partial | PropertiesKinematics.v | A2, A1, A4, A3 |
| C20_refuted_deep_entry_turns_the_particle_around | PropertiesKinematics.v | A2, A1, A4, A3 |
| C20_entering_moves_towards_the_surface_partial | PropertiesKinematics.v | A2, A1, A4, A3 |
| C21_electronic_stopping_inside | PropertiesKinematics.v | A2, A1, A4, A3 |
| C21_electronic_stopping_outside | PropertiesKinematics.v | A2, A1, A4, A3 |
| C22_refuted_losses_overreported_when_energy_runs_out | PropertiesKinematics.v | A2, A1, A4, A3 |
| C22_recorded_losses_of_a_step_partial | PropertiesKinematics.v | A2, A1, A4, A3 |
| C62_energy_origin_partial | PropertiesLib.v | none |
| C62_default_incident_refuted | PropertiesLib.v | A2, A1, A4, A3 |
| C63_arrays_aligned | PropertiesLib.v | none |
| C63_tags_follow_ions | PropertiesLib.v | none |
| C64_layout_refuted | PropertiesLib.v | none |
| C64_layout_partial | PropertiesLib.v | none |
| C65_yield_any_schedule | PropertiesLib.v | none |
| C65_reflection_any_schedule_partial | PropertiesLib.v | A2, A1, A4, A3 |
| C65_energy_schedule_refuted | PropertiesLib.v | none |
| C65_same_run_two_schedules_refuted | PropertiesLib.v | none |
| C66_frame_rotation | PropertiesLib.v | A2, A1, A4, A3 |
| C66_round_trip | PropertiesLib.v | A2, A1, A4, A3 |
| C67_other_species_refuted | PropertiesLib.v | none |
| C67_run_panics_refuted | PropertiesLib.v | none |
| C67_one_species_partial | PropertiesLib.v | none |
| C68_command_line | PropertiesLib.v | none |
| C70_start_inside_barrier_refuted | PropertiesLib.v | A2, A1, A4, A3 |
| C70_layered_start_inside_barrier_refuted | PropertiesLib.v | A2, A1, A4, A3 |
| C70_yield_start_outside_partial | PropertiesLib.v | A2, A1, A4, A3 |
| C71_stopped_ion_reported_refuted | PropertiesLib.v | A2, A1, A4, A3 |
| C71_reported_energy_partial | PropertiesLib.v | A2, A1, A4, A3 |
| C72_python_lists | PropertiesLib.v | none |
| C72_layered_python_lists | PropertiesLib.v | none |
| C72_reflected_velocity | PropertiesLib.v | none |
| C74_normal_direction_becomes_nan_refuted | PropertiesLib.v | none |
| C74_normal_incidence_run_refuted | PropertiesLib.v | none |
| C74_oblique_velocity_partial | PropertiesLib.v | A2, A1, A4, A3 |
| C75_flight_after_crossing_refuted | PropertiesLib.v | A2, A1, A4, A3 |
| C75_flight_direction_partial | PropertiesLib.v | A2, A1, A4, A3 |
| C23_collision_geometries_stay_in_their_annuli | PropertiesMaterial.v | A2, A1, A4, A3 |
| C24_refuted_threshold_ignored_without_free_flight_paths | PropertiesMaterial.v | A2, A1, A4, A3 |
| C24_threshold_with_free_flight_paths_partial | PropertiesMaterial.v | A2, A1, A4, A3 |
| C25_species_are_drawn_with_their_concentrations | PropertiesMaterial.v | A2, A1, A4, A3 |
| C25_interval_length | PropertiesMaterial.v | A1, A4 |
| C26_refuted_choose_panics_in_double_precision | PropertiesMaterial.v | none |
| C27_averages_between_least_and_greatest | PropertiesMaterial.v | A2, A1, A4, A3 |
| C27_surface_binding_models | PropertiesMaterial.v | A2, A1, A4, A3 |
| C27_surface_binding_energy_not_negative | PropertiesMaterial.v | A2, A1, A4, A3 |
| C28_refuted_average_model_not_zero | PropertiesMaterial.v | A2, A1, A4, A3 |
| C28_average_model_zero_when_all_species_present_partial | PropertiesMaterial.v | A2, A1, A4, A3 |
| C29_refuted_bulk_binding_model_is_ignored | PropertiesMaterial.v | none |
| C29_recoil_pays_the_average_bulk_binding_energy_partial | PropertiesMaterial.v | A2, A1, A4, A3 |
| C30_minimum_cutoff_energy_is_the_minimum | PropertiesMaterial.v | A2, A1, A4, A3 |
| C31_low_energy_stopping_is_proportional_to_ck | PropertiesMaterial.v | A2, A1, A4, A3 |
| C31_refuted_interpolated_stopping_decreases_with_ck | PropertiesMaterial.v | A2, A1, A4, A3 |
| C31_interpolation_below_both_limits_partial | PropertiesMaterial.v | A2, A1, A4, A3 |
| C54_chunking | PropertiesRun.v | none |
| C54_every_ion_once | PropertiesRun.v | none |
| C54_rejects | PropertiesRun.v | none |
| C55_number_of_chunks_partial | PropertiesRun.v | none |
| C55_number_of_chunks_refuted | PropertiesRun.v | none |
| C56_parallel_serial | PropertiesRun.v | none |
| C56_one_chunk | PropertiesRun.v | none |
| C57_summary | PropertiesRun.v | none |
| C58_list_files | PropertiesRun.v | none |
| C58_totals | PropertiesRun.v | none |
| C59_completed_chunks_partial | PropertiesRun.v | none |
| C59_energy_losses_refuted | PropertiesRun.v | none |
| C60_never_out_of_bounds | PropertiesRun.v | none |
| C60_histograms_partial | PropertiesRun.v | A2, A1, A4, A3 |
| C60_position_below_axis_refuted | PropertiesRun.v | A2, A1, A4, A3 |
| C60_single_bin_refuted | PropertiesRun.v | none |
| C01_every_returned_particle_is_finished | PropertiesTransport.v | none |
| C02_ion_first_with_identity | PropertiesTransport.v | none |
| C03_recoils_come_from_one_species_and_inherit | PropertiesTransport.v | none |
| C04_no_recoil_tracking_one_particle | PropertiesTransport.v | none |
| C05_refuted_finished_particles_panic | PropertiesTransport.v | none |
| C05_unfinished_particles_never_empty_the_stack_partial | PropertiesTransport.v | none |
| C06_histories_append_only_and_end_at_final_point | PropertiesTransport.v | none |
