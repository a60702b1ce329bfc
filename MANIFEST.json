{
 "claims": [
  {
   "property": "C01",
   "status": "proved",
   "theorems": [
    "C01_every_returned_particle_is_finished"
   ],
   "note": ""
  },
  {
   "property": "C02",
   "status": "proved",
   "theorems": [
    "C02_ion_first_with_identity"
   ],
   "note": ""
  },
  {
   "property": "C03",
   "status": "proved",
   "theorems": [
    "C03_recoils_come_from_one_species_and_inherit"
   ],
   "note": ""
  },
  {
   "property": "C04",
   "status": "proved",
   "theorems": [
    "C04_no_recoil_tracking_one_particle"
   ],
   "note": ""
  },
  {
   "property": "C05",
   "status": "partial",
   "theorems": [
    "C05_refuted_finished_particles_panic",
    "C05_unfinished_particles_never_empty_the_stack_partial"
   ],
   "note": "REFUTED: the code pops the empty stack and panics for every particle that is already stopped or left. Proved instead: this panic never happens for an unfinished particle in any of the code's geometries (default build)."
  },
  {
   "property": "C06",
   "status": "proved",
   "theorems": [
    "C06_histories_append_only_and_end_at_final_point"
   ],
   "note": ""
  },
  {
   "property": "C07",
   "status": "partial",
   "theorems": [
    "C07_refuted_parallel_ion_never_ends",
    "C07_outward_ion_leaves_partial",
    "C07_results_do_not_depend_on_fuel_partial"
   ],
   "note": "REFUTED: a particle flying parallel to the surface of a half-space outside the material but inside the simulation boundary is never finished, for any number of iterations. Proved instead: an outward-flying ion outside a half-space leaves within a computed number of steps; results never depend on the iteration bound of the model."
  },
  {
   "property": "C08",
   "status": "proved",
   "theorems": [
    "C08_energies_never_negative",
    "C08_energies_never_negative_in_flight"
   ],
   "note": ""
  },
  {
   "property": "C09",
   "status": "proved",
   "theorems": [
    "C09_recoil_energy_between_zero_and_kinematic_maximum"
   ],
   "note": ""
  },
  {
   "property": "C10",
   "status": "proved",
   "theorems": [
    "C10_collision_conserves_energy_and_momentum",
    "C10_reported_angles_conserve_momentum"
   ],
   "note": ""
  },
  {
   "property": "C11",
   "status": "proved",
   "theorems": [
    "C11_laboratory_angles"
   ],
   "note": ""
  },
  {
   "property": "C12",
   "status": "proved",
   "theorems": [
    "C12_rotate_turns_by_psi"
   ],
   "note": ""
  },
  {
   "property": "C13",
   "status": "partial",
   "theorems": [
    "C13_refuted_rotation_onto_the_axis",
    "C13_generic_deflections_stay_off_axis_partial"
   ],
   "note": "REFUTED: a deflection can turn a direction exactly onto the x axis, where rotate divides by zero. Proved instead: generic deflections stay off the axis."
  },
  {
   "property": "C14",
   "status": "partial",
   "theorems": [
    "C14_refuted_offset_not_perpendicular",
    "C14_partner_position_partial"
   ],
   "note": "REFUTED: the impact parameter offset is not perpendicular to the direction of flight. Proved instead: what position the partner gets."
  },
  {
   "property": "C15",
   "status": "proved",
   "theorems": [
    "C15_displacement_of_a_step",
    "C15_flight_direction_is_the_direction_before_the_collision",
    "C15_path_lengths_telescope",
    "C15_recoils_start_along_their_direction"
   ],
   "note": ""
  },
  {
   "property": "C16",
   "status": "proved",
   "theorems": [
    "C16_surface_refraction_is_exact"
   ],
   "note": ""
  },
  {
   "property": "C17",
   "status": "proved",
   "theorems": [
    "C17_in_and_out_restores_the_particle"
   ],
   "note": ""
  },
  {
   "property": "C18",
   "status": "proved",
   "theorems": [
    "C18_barrier_decides_by_normal_energy",
    "C18_entering_the_barrier",
    "C18_no_crossing_no_change"
   ],
   "note": ""
  },
  {
   "property": "C19",
   "status": "partial",
   "theorems": [
    "C19_refuted_reflected_particle_moves_on_outwards",
    "C19_reflected_direction_points_to_the_material_partial"
   ],
   "note": "REFUTED: the step after a reflection still flies along the stale old direction, away from the material. Proved instead: the stored direction points back."
  },
  {
   "property": "C20",
   "status": "partial",
   "theorems": [
    "C20_refuted_deep_entry_turns_the_particle_around",
    "C20_entering_moves_towards_the_surface_partial"
   ],
   "note": "REFUTED: entering so deep that the new position is inside turns the particle around. Proved instead: refraction moves the particle towards the closest surface point."
  },
  {
   "property": "C21",
   "status": "proved",
   "theorems": [
    "C21_electronic_stopping_inside",
    "C21_electronic_stopping_outside"
   ],
   "note": ""
  },
  {
   "property": "C22",
   "status": "partial",
   "theorems": [
    "C22_refuted_losses_overreported_when_energy_runs_out",
    "C22_recorded_losses_of_a_step_partial"
   ],
   "note": "REFUTED: the reported electronic loss is not clamped to the energy left. Proved instead: E' = max(0, E - recorded nuclear - recorded electronic)."
  },
  {
   "property": "C23",
   "status": "proved",
   "theorems": [
    "C23_collision_geometries_stay_in_their_annuli"
   ],
   "note": ""
  },
  {
   "property": "C24",
   "status": "partial",
   "theorems": [
    "C24_refuted_threshold_ignored_without_free_flight_paths",
    "C24_threshold_with_free_flight_paths_partial"
   ],
   "note": "REFUTED: without high_energy_free_flight_paths the THRESHOLD model never consults the density. Proved instead: with them, below the threshold the path is exponential or a longer free flight."
  },
  {
   "property": "C25",
   "status": "proved",
   "theorems": [
    "C25_species_are_drawn_with_their_concentrations",
    "C25_interval_length"
   ],
   "note": ""
  },
  {
   "property": "C26",
   "status": "partial",
   "theorems": [
    "C26_refuted_choose_panics_in_double_precision",
    "C26_one_species_is_always_chosen_partial",
    "C26_choosing_fails_only_next_to_one_partial"
   ],
   "note": "REFUTED: in binary64 with densities 9:6:3 the cumulative concentration ends at 1-2^-53 and the random number 1-2^-53 panics. (Exact arithmetic: C25.) Proved instead in binary64 (Flocq): one species is chosen for every draw below 1, and k species (up to a million) fail for no draw below 1 - (k+1) 2^-52."
  },
  {
   "property": "C27",
   "status": "proved",
   "theorems": [
    "C27_averages_between_least_and_greatest",
    "C27_surface_binding_models",
    "C27_surface_binding_energy_not_negative"
   ],
   "note": ""
  },
  {
   "property": "C28",
   "status": "partial",
   "theorems": [
    "C28_refuted_average_model_not_zero",
    "C28_average_model_zero_when_all_species_present_partial"
   ],
   "note": "REFUTED: the code tests the unweighted sum of Es, so a bound but locally absent species gives half the particle's Es. Proved instead: zero where all species are present."
  },
  {
   "property": "C29",
   "status": "partial",
   "theorems": [
    "C29_refuted_bulk_binding_model_is_ignored",
    "C29_bulk_binding_models_partial",
    "C29_recoil_pays_the_average_bulk_binding_energy_partial"
   ],
   "note": "REFUTED: no simulation result depends on bulk_binding_model. Proved instead: recoils pay the average bulk binding energy, which is their own where all species have the same."
  },
  {
   "property": "C30",
   "status": "proved",
   "theorems": [
    "C30_minimum_cutoff_energy_is_the_minimum"
   ],
   "note": ""
  },
  {
   "property": "C31",
   "status": "partial",
   "theorems": [
    "C31_low_energy_stopping_is_proportional_to_ck",
    "C31_refuted_interpolated_stopping_decreases_with_ck",
    "C31_interpolation_below_both_limits_partial"
   ],
   "note": "Low-energy part proved. REFUTED for INTERPOLATED: a larger correction factor strictly lowers the stopping. Proved instead: at ck=1 it lies below both limits."
  },
  {
   "property": "C32",
   "status": "proved",
   "theorems": [
    "C32_half_space_is_nested",
    "C32_layered_target_is_nested",
    "C32_sphere_is_nested",
    "C32_ball_is_nested",
    "C32_inside_2D_is_inside_barrier"
   ],
   "note": "Half-space, layers, sphere in full; ball relative to correct ball queries of parry3d; 2D/trimesh: inside => inside barrier for every answer of the external polygon/mesh queries."
  },
  {
   "property": "C33",
   "status": "proved",
   "theorems": [
    "C33_layer_lookup_is_total_and_unambiguous",
    "C33_layers_tile_the_target"
   ],
   "note": ""
  },
  {
   "property": "C34",
   "status": "partial",
   "theorems": [
    "C34_refuted_short_ck_list_drops_layers",
    "C34_mesh_keeps_every_layer_partial"
   ],
   "note": "REFUTED: a list of correction factors shorter than the list of layers silently drops the deeper layers. Proved instead: with enough correction factors every layer is kept."
  },
  {
   "property": "C35",
   "status": "proved",
   "theorems": [
    "C35_closest_point_half_space",
    "C35_closest_point_layers",
    "C35_closest_point_sphere"
   ],
   "note": ""
  },
  {
   "property": "C36",
   "status": "proved",
   "theorems": [
    "C36_triangle_containment_is_containment"
   ],
   "note": ""
  },
  {
   "property": "C37",
   "status": "proved",
   "theorems": [
    "C37_triangle_distance_is_the_distance_to_its_outline",
    "C37_triangle_distance_panics_exactly_on_zero_length_sides"
   ],
   "note": ""
  },
  {
   "property": "C38",
   "status": "proved",
   "theorems": [
    "C38_inside_lookup",
    "C38_outside_lookup_is_a_nearest_cell"
   ],
   "note": ""
  },
  {
   "property": "C39",
   "status": "proved",
   "theorems": [
    "C39_concentrations_are_a_probability_vector"
   ],
   "note": ""
  },
  {
   "property": "C40",
   "status": "partial",
   "theorems": [
    "C40_screening_functions",
    "C40_lenz_jensen_refuted"
   ],
   "note": "REFUTED in one point: the Lenz-Jensen coefficients sum to 1.00008, so phi(0) is not 1. Everything else is proved for all five screening functions."
  },
  {
   "property": "C41",
   "status": "partial",
   "theorems": [
    "C41_newton_derivative_screened_partial",
    "C41_lennard_jones_derivative_partial",
    "C41_newton_variable_lennard_jones_refuted",
    "C41_morse_refuted",
    "C41_singularity_free_refuted"
   ],
   "note": "REFUTED for the Morse potential, for the singularity-free function of every screened potential (a term is missing) and for Lennard-Jones in the variable Newton's method iterates on. Proved for the screened potentials in Newton's variable and for Lennard-Jones in r."
  },
  {
   "property": "C42",
   "status": "partial",
   "theorems": [
    "C42_roots_are_turning_points_partial",
    "C42_potential_exists",
    "C42_four_eight_refuted"
   ],
   "note": "REFUTED for FOUR_EIGHT. Proved for every other potential with a distance-of-closest-approach function, both variants."
  },
  {
   "property": "C43",
   "status": "proved",
   "theorems": [
    "C43_polynomial_roots_are_turning_points",
    "C43_zero_is_not_a_root"
   ],
   "note": ""
  },
  {
   "property": "C44",
   "status": "proved",
   "theorems": [
    "C44_coulomb_turning_point"
   ],
   "note": ""
  },
  {
   "property": "C45",
   "status": "proved",
   "theorems": [
    "C45_newton_reports_only_converged_iterates",
    "C45_newton_converges"
   ],
   "note": "The first theorem holds for every number type (so also binary64); the convergence theorem is in exact arithmetic."
  },
  {
   "property": "C46",
   "status": "partial",
   "theorems": [
    "C46_head_on_high_energy_partial",
    "C46_head_on_low_energy_refuted"
   ],
   "note": "REFUTED in binary64 for every math library: at impact parameter zero and reduced energy at most 5 the root finder always fails. Proved instead: above 5 it converges."
  },
  {
   "property": "C47",
   "status": "proved",
   "theorems": [
    "C47_crossing_point"
   ],
   "note": ""
  },
  {
   "property": "C48",
   "status": "proved",
   "theorems": [
    "C48_no_potential_no_deflection"
   ],
   "note": ""
  },
  {
   "property": "C49",
   "status": "partial",
   "theorems": [
    "C49_lookups_in_range_partial",
    "C49_hdf5_refuted"
   ],
   "note": "REFUTED for particles read from an HDF5 file: their interaction index is never checked. Proved for every other accepted input."
  },
  {
   "property": "C50",
   "status": "partial",
   "theorems": [
    "C50_implemented_combinations_partial",
    "C50_every_collision_panics_refuted",
    "C50_lenz_jensen_magic_refuted",
    "C50_unimplemented_accepted_refuted"
   ],
   "note": "REFUTED: WW, KRC_MORSE, FOUR_EIGHT with Newton, COULOMB without a Gauss integral and LENZ_JENSEN with MAGIC are accepted and always panic. Proved that the documented combinations never do; the CPR root finder (external crate) is left out."
  },
  {
   "property": "C51",
   "status": "partial",
   "theorems": [
    "C51_checked_lengths_partial",
    "C51_cutoff_energies_refuted",
    "C51_displacement_energies_refuted",
    "C51_interaction_indices_refuted"
   ],
   "note": "REFUTED: an accepted input stays accepted with any list of cutoff energies, and with any list of two or more displacement energies or interaction indices. Proved for the arrays that are checked."
  },
  {
   "property": "C52",
   "status": "proved",
   "theorems": [
    "C52_particles_as_requested",
    "C52_particles_of_the_file"
   ],
   "note": "Directions are treated in C73."
  },
  {
   "property": "C53",
   "status": "partial",
   "theorems": [
    "C53_weight_and_tag_refuted",
    "C53_toml_particles_partial"
   ],
   "note": "REFUTED: Particle::from_input always sets weight 1 and tag 0, so weights and tags from HDF5 input are lost. TOML input cannot state others, so nothing is lost there."
  },
  {
   "property": "C54",
   "status": "proved",
   "theorems": [
    "C54_chunking",
    "C54_every_ion_once",
    "C54_rejects"
   ],
   "note": ""
  },
  {
   "property": "C55",
   "status": "partial",
   "theorems": [
    "C55_number_of_chunks_partial",
    "C55_number_of_chunks_refuted"
   ],
   "note": "REFUTED: five ions in three chunks are processed as five chunks. Proved: the exact number, never fewer than requested, equal when num_chunks divides the number of ions."
  },
  {
   "property": "C56",
   "status": "proved",
   "theorems": [
    "C56_parallel_serial",
    "C56_one_chunk"
   ],
   "note": ""
  },
  {
   "property": "C57",
   "status": "proved",
   "theorems": [
    "C57_summary"
   ],
   "note": "For masses on which == is equality (no NaN, no mixture of +0 and -0)."
  },
  {
   "property": "C58",
   "status": "proved",
   "theorems": [
    "C58_list_files",
    "C58_totals"
   ],
   "note": "Rows as lists of numbers; number formatting is not modelled."
  },
  {
   "property": "C59",
   "status": "partial",
   "theorems": [
    "C59_completed_chunks_partial",
    "C59_energy_losses_refuted"
   ],
   "note": "REFUTED for energy_loss.output, which is never flushed. Proved for the other six files, for every spilling behaviour of the buffers."
  },
  {
   "property": "C60",
   "status": "partial",
   "theorems": [
    "C60_never_out_of_bounds",
    "C60_histograms_partial",
    "C60_position_below_axis_refuted",
    "C60_single_bin_refuted"
   ],
   "note": "REFUTED for positions less than one bin below the axis (truncation towards zero counts them in bin 0) and for axes with one bin (always panics). Everything else proved in exact arithmetic."
  },
  {
   "property": "C61",
   "status": "partial",
   "theorems": [
    "C61_default_options_partial",
    "C61_other_defaults",
    "C61_distributions_build_refuted"
   ],
   "note": "REFUTED in the distributions build: the argument is stored in track_trajectories instead of track_recoils."
  },
  {
   "property": "C62",
   "status": "partial",
   "theorems": [
    "C62_energy_origin_partial",
    "C62_default_incident_refuted"
   ],
   "note": "REFUTED for Particle::default_incident (Python and yield interfaces): energy_origin is stored in eV, the energy in joules. Proved for the other constructors."
  },
  {
   "property": "C63",
   "status": "proved",
   "theorems": [
    "C63_arrays_aligned",
    "C63_tags_follow_ions"
   ],
   "note": ""
  },
  {
   "property": "C64",
   "status": "partial",
   "theorems": [
    "C64_layout_partial",
    "C64_layout_refuted"
   ],
   "note": "REFUTED: every non-empty result is freed with its length in elements instead of its size in bytes. Raw pointers are not modelled, only the layouts."
  },
  {
   "property": "C65",
   "status": "partial",
   "theorems": [
    "C65_yield_any_schedule",
    "C65_reflection_any_schedule_partial",
    "C65_energy_schedule_refuted",
    "C65_same_run_two_schedules_refuted"
   ],
   "note": "Yield and particle coefficient proved for every schedule in any arithmetic, energy coefficient in exact arithmetic. REFUTED in binary64 for the energy coefficient: the last digits depend on the order of the threads, shown for all libraries and in a complete concrete run."
  },
  {
   "property": "C66",
   "status": "proved",
   "theorems": [
    "C66_frame_rotation",
    "C66_round_trip"
   ],
   "note": "Exact arithmetic."
  },
  {
   "property": "C67",
   "status": "partial",
   "theorems": [
    "C67_one_species_partial",
    "C67_other_species_refuted",
    "C67_run_panics_refuted"
   ],
   "note": "REFUTED: the interaction index list has one entry whatever the number of species, so choosing any other species panics. Proved to agree with simple_bca for one species."
  },
  {
   "property": "C68",
   "status": "proved",
   "theorems": [
    "C68_command_line"
   ],
   "note": ""
  },
  {
   "property": "C69",
   "status": "proved",
   "theorems": [
    "C69_collision_energy_bookkeeping"
   ],
   "note": ""
  },
  {
   "property": "C70",
   "status": "partial",
   "theorems": [
    "C70_yield_start_outside_partial",
    "C70_start_inside_barrier_refuted",
    "C70_layered_start_inside_barrier_refuted"
   ],
   "note": "REFUTED for every positive density: 10E30 is 10^31, so the list interfaces start inside the barrier; the layered interface starts at half the thickness. The yield interfaces start outside."
  },
  {
   "property": "C71",
   "status": "partial",
   "theorems": [
    "C71_reported_energy_partial",
    "C71_stopped_ion_reported_refuted"
   ],
   "note": "REFUTED: an ion that stops in the barrier (x < 0) is reported with its energy. Proved: ions that left are reported with their energy, ions stopped at x >= 0 with zero."
  },
  {
   "property": "C72",
   "status": "proved",
   "theorems": [
    "C72_python_lists",
    "C72_layered_python_lists",
    "C72_reflected_velocity"
   ],
   "note": ""
  },
  {
   "property": "C73",
   "status": "partial",
   "theorems": [
    "C73_directions_partial",
    "C73_hdf5_build_refuted"
   ],
   "note": "REFUTED in the HDF5 build: random components are multiplied by the length unit, fixed ones are not. Proved for the default build in exact arithmetic."
  },
  {
   "property": "C74",
   "status": "partial",
   "theorems": [
    "C74_oblique_velocity_partial",
    "C74_normal_direction_becomes_nan_refuted",
    "C74_normal_incidence_run_refuted"
   ],
   "note": "REFUTED: with velocity exactly along +x the first deflection turns the direction into NaNs, for every math library. Proved in exact arithmetic that other velocities give a unit direction off the axis."
  },
  {
   "property": "C75",
   "status": "partial",
   "theorems": [
    "C75_flight_direction_partial",
    "C75_flight_after_crossing_refuted"
   ],
   "note": "REFUTED: after a crossing or reflection the next flight still uses the direction from before it. Proved when the last surface test saw no crossing."
  },
  {
   "property": "C76",
   "status": "partial",
   "theorems": [
    "C76_refuted_top_surface_uses_the_bottom_layer",
    "C76_below_the_surface_it_is_the_top_layer_partial"
   ],
   "note": "REFUTED: at exactly x = top the getters return the bottom layer. Proved instead: immediately below the surface it is the top layer."
  },
  {
   "property": "C77",
   "status": "proved",
   "theorems": [
    "C77_gauss_mehler_angle"
   ],
   "note": ""
  },
  {
   "property": "C78",
   "status": "partial",
   "theorems": [
    "C78_newton_lennard_jones_refuted"
   ],
   "note": "REFUTED: an infinite family of inputs where the reported point is below 0.51 sigma and every turning point is beyond 0.9 sigma."
  },
  {
   "property": "C79",
   "status": "partial",
   "theorems": [
    "C79_reported_point_usable_partial",
    "C79_reported_point_usable_refuted",
    "C79_negative_radicand_panics"
   ],
   "note": "REFUTED: at reduced energy at most 5 the reported point is always strictly inside the turning point, so with enough nodes the first radicand is negative; proved usable when the tolerance is fine enough for the node count."
  },
  {
   "property": "C80",
   "status": "partial",
   "theorems": [
    "C80_root_finder_option_ignored_refuted",
    "C80_root_finder_option_used_partial"
   ],
   "note": "REFUTED for the screened potentials: NEWTON with 100 iterations and tolerance 1e-6 is always used. Proved for the attractive potentials: all four choices, with and without the feature cpr_rootfinder."
  },
  {
   "property": "C81",
   "status": "proved",
   "theorems": [
    "C81_bookkeeping_is_inert",
    "C81_tags_weights_positions_are_inert"
   ],
   "note": ""
  },
  {
   "property": "C82",
   "status": "proved",
   "theorems": [
    "C82_moving_the_ion_along_a_flat_surface",
    "C82_moving_the_ion_along_the_axis_of_a_2d_mesh"
   ],
   "note": "Exact arithmetic."
  },
  {
   "property": "C83",
   "status": "proved",
   "theorems": [
    "C83_stopping_is_taken_at_the_particle"
   ],
   "note": "Any arithmetic. The code's z = pos.y is harmless because no shipped geometry varies along z."
  },
  {
   "property": "C84",
   "status": "proved",
   "theorems": [
    "C84_compound_bca_list_c",
    "C84_compound_bca_list_fortran",
    "C84_fortran_count",
    "C84_simple_bca_list_py",
    "C84_simple_bca_list_of_one",
    "C84_compound_bca_list_py",
    "C84_compound_bca_list_1D_py",
    "C84_compound_tagged_bca_list_c"
   ],
   "note": ""
  },
  {
   "property": "C85",
   "status": "proved",
   "theorems": [
    "C85_stopping_formulas",
    "C85_stopping_depends_on_the_speed"
   ],
   "note": "Exact arithmetic."
  },
  {
   "property": "C86",
   "status": "partial",
   "theorems": [
    "C86_from_input_partial",
    "C86_default_incident_partial",
    "C86_double_precision_partial",
    "C86_direction_refuted"
   ],
   "note": "REFUTED in double precision: directions whose squares overflow are accepted and become the zero vector, infinite ones become NaN. Proved in exact arithmetic for non-zero directions, and for binary64 that the energy is positive and the x component a number below one."
  },
  {
   "property": "C87",
   "status": "proved",
   "theorems": [
    "C87_material_in_SI",
    "C87_same_target_in_other_units"
   ],
   "note": "Exact arithmetic."
  },
  {
   "property": "C88",
   "status": "partial",
   "theorems": [
    "C88_loss_of_a_step_partial",
    "C88_refuted_local_loss_without_a_collision"
   ],
   "note": "REFUTED: the local loss is charged in every step that ends inside, also when nothing was hit (complete binary64 run). Proved in exact arithmetic for steps whose first partner is in the target: all formulas, per mode and potential."
  },
  {
   "property": "C89",
   "status": "partial",
   "theorems": [
    "C89_stopping_only_slows_partial",
    "C89_refuted_negative_stopping"
   ],
   "note": "REFUTED: the path of a step can be negative and then the electronic loss is too (complete binary64 run). Proved in exact arithmetic for local stopping and for forward steps (low-energy modes)."
  },
  {
   "property": "C90",
   "status": "partial",
   "theorems": [
    "C90_energy_of_a_cascade_partial",
    "C90_refuted_energy_is_created"
   ],
   "note": "REFUTED with non-local stopping: an ion leaves with more energy than it had. Proved in exact arithmetic for local stopping without surface binding energies."
  },
  {
   "property": "C91",
   "status": "partial",
   "theorems": [
    "C91_collision_pushes_partial",
    "C91_refuted_slanted_flight",
    "C91_refuted_attraction"
   ],
   "note": "REFUTED: a sign in the partner's position (bca.rs 363-365) makes a repulsive collision turn the projectile towards its partner for slanted flights; the sign of the scattering angle is dropped, so attraction deflects like repulsion. Proved in exact arithmetic for flights in the planes where the sign does not matter."
  },
  {
   "property": "C92",
   "status": "proved",
   "theorems": [
    "C92_deep_recoils"
   ],
   "note": "Exact arithmetic."
  },
  {
   "property": "C93",
   "status": "partial",
   "theorems": [
    "C93_free_flight_path",
    "C93_loss_limit_partial",
    "C93_refuted_loss_limit"
   ],
   "note": "REFUTED: the correction factor is applied twice in the estimate, so for factors below one the loss of a step exceeds the 5 % limit (complete binary64 run: 10 % of 1 MeV). Proved in exact arithmetic: the path and impact parameter formulas, and the limit for factors of at least one."
  },
  {
   "property": "C94",
   "status": "proved",
   "theorems": [
    "C94_recoils_off",
    "C94_ion_is_the_same"
   ],
   "note": "For any arithmetic, including binary64."
  },
  {
   "property": "C95",
   "status": "proved",
   "theorems": [
    "C95_polynomial_root_finder",
    "C95_cpr_root_finder",
    "C95_cpr_root_finder_outermost",
    "C95_scaled_function"
   ],
   "note": "Exact arithmetic; that the external root library lists exactly the roots it is asked for is a hypothesis."
  },
  {
   "property": "C96",
   "status": "proved",
   "theorems": [
    "C96_degree_nine",
    "C96_no_potential"
   ],
   "note": "Exact arithmetic."
  },
  {
   "property": "C97",
   "status": "partial",
   "theorems": [
    "C97_turning_the_ion_partial",
    "C97_half_turn_partial",
    "C97_refuted_recoil_positions"
   ],
   "note": "REFUTED: the sign in the recoil position (bca.rs 365) makes recoil positions depend on the azimuth of the ion (complete binary64 runs: 1.08 and 0.74 angstrom from the axis). Proved in exact arithmetic: everything else is turned with the ion, including its own track; half turns carry the recoils along, too."
  },
  {
   "property": "C98",
   "status": "proved",
   "theorems": [
    "C98_mirror_images"
   ],
   "note": "Exact arithmetic; a random number r is mirrored to 1 - r."
  },
  {
   "property": "C99",
   "status": "partial",
   "theorems": [
    "C99_screened_potentials",
    "C99_lenz_jensen_partial",
    "C99_lenz_jensen_refuted",
    "C99_exchange",
    "C99_screening_lengths"
   ],
   "note": "REFUTED for LENZ_JENSEN, whose coefficients add up to 1.00008: close to the nuclei it exceeds the bare repulsion by up to 80 ppm. Proved in exact arithmetic for the others, and for LENZ_JENSEN up to that factor."
  },
  {
   "property": "C100",
   "status": "proved",
   "theorems": [
    "C100_wells"
   ],
   "note": "Exact arithmetic."
  },
  {
   "property": "C101",
   "status": "proved",
   "theorems": [
    "C101_tungsten",
    "C101_krc_morse"
   ],
   "note": "Exact arithmetic."
  },
  {
   "property": "C102",
   "status": "proved",
   "theorems": [
    "C102_compound_bca_list_c",
    "C102_simple_bca_list_c",
    "C102_compound_tagged_bca_list_c",
    "C102_compound_bca_list_fortran",
    "C102_compound_bca_list_py",
    "C102_compound_bca_list_1D_py",
    "C102_simple_bca",
    "C102_reflect_single_ion_c",
    "C102_reflect_single_ion_py",
    "C102_sputtering_yield",
    "C102_reflection_coefficient"
   ],
   "note": "Exact arithmetic; velocities and directions that are not the zero vector. The multi-species simple_compound_bca is C67."
  },
  {
   "property": "C103",
   "status": "partial",
   "theorems": [
    "C103_one_iteration_partial",
    "C103_a_cascade_is_paid_by_the_ion_partial",
    "C103_sputtered_atoms_are_bounded_partial",
    "C103_refuted_particles_leave_without_paying"
   ],
   "note": "REFUTED: a flight that ends beyond the simulation boundary pays nothing, and a reflected particle still makes one flight outwards (complete binary64 runs: 20 eV hydrogen leaves with more than 21 eV; 2 eV hydrogen leaves a barrier of 3 eV). Proved in exact arithmetic with local stopping: the balance of every iteration and cascade in which no particle gets out unpaid, and the bound on the number of displaced and sputtered atoms."
  },
  {
   "property": "C104",
   "status": "partial",
   "theorems": [
    "C104_a_species_may_be_entered_in_parts",
    "C104_absent_species_have_no_influence_partial",
    "C104_half_spaces",
    "C104_refuted_absent_species_in_the_first_place"
   ],
   "note": "REFUTED for an absent species in the first place of the list: strong_collision_index starts at 0, so a flight without a collision is charged the local stopping of species 0 (complete binary64 runs that differ by more than 1 eV). Proved in exact arithmetic for any division of a species (with AVERAGE: binding energies not negative) and for an absent species in any other place (with AVERAGE: unless it alone decides whether the binding energies add up to 0, cf. C28)."
  },
  {
   "property": "C105",
   "status": "partial",
   "theorems": [
    "C105_a_collision_takes_no_more_than_there_is_partial",
    "C105_energies_never_negative_partial",
    "C105_refuted_masses_that_are_almost_the_same"
   ],
   "note": "REFUTED for masses that are almost but not exactly the same: an ion of mass 63.550000000000004 u on a target of 63.55 u has a computed kinematic factor above 1; after a head-on collision its energy is negative, the stopping power NaN, and the run panics (complete binary64 run). Proved in binary64 (Flocq), with any geometry, potential and stopping mode, when every two masses are equal or differ by at least 2^-25 of their sum, with proper non-negative constants and the ISOTROPIC surface model (the planar ones compare a rounded cosine)."
  },
  {
   "property": "C106",
   "status": "proved",
   "theorems": [
    "C106_half_space",
    "C106_layers",
    "C106_sphere",
    "C106_ball",
    "C106_polygon",
    "C106_triangulated_body"
   ],
   "note": "Densities are non-negative with a positive sum. Ball, polygon and triangulated body are stated in terms of the answers of parry3d and geo (for the ball: assumed to be correct). The 2D triangle mesh is C38."
  },
  {
   "property": "C107",
   "status": "partial",
   "theorems": [
    "C107_directions_have_length_one_or_none_partial",
    "C107_refuted_an_ion_without_place_and_direction"
   ],
   "note": "REFUTED in double precision: 1 eV helium with direction (1, 4e-8, 0), which from_input accepts, and a surface binding energy of 2 eV is refracted to exactly (1, 0, 0), the next rotation divides by zero, and the ion is returned as having left with NaN position and direction and 2.35 eV (complete binary64 run). Proved in exact arithmetic with undefined values (NumO: quotients by zero etc. are undefined and compare false), without any guard: every returned direction has length one or is undefined."
  },
  {
   "property": "C108",
   "status": "proved",
   "theorems": [
    "C108_momentum",
    "C108_refraction_angle",
    "C108_summary",
    "C108_centroid",
    "C108_layer_distance",
    "C108_concentrations"
   ],
   "note": "exact real arithmetic; the summary theorem holds for every number type. C108_refraction_angle also says what the function does outside its domain (|costheta| > 1: no rotation)."
  },
  {
   "property": "C109",
   "status": "partial",
   "theorems": [
    "C109_sampling_in_double_precision_partial",
    "C109_refuted_random_number_zero",
    "C109_refuted_an_ion_implanted_at_infinity"
   ],
   "note": "REFUTED for gaseous targets: rand::random() can return 0, and -ln(0) is infinite, so the path length is infinite or NaN for every target; complete binary64 run of an ion implanted at infinite depth. Proved in binary64 for every math library: without high-energy free flight paths and for non-gaseous targets every sampled number is usable, for gaseous ones when no random number is 0."
  },
  {
   "property": "C110",
   "status": "partial",
   "theorems": [
    "C110_a_covered_point_has_a_cell_partial",
    "C110_refuted_a_point_between_the_cells",
    "C110_refuted_an_ion_between_the_cells"
   ],
   "note": "REFUTED in double precision: for a 10 x 50 angstrom rectangle in two triangles the point (7, 35) angstrom of the diagonal is in neither, so every lookup there panics and the simulation of an ion that gets there dies (for every math library, options and random numbers; the polygon code is only assumed to put the point inside). Proved in exact arithmetic: wherever a triangle covers the point the lookups succeed with a cell that contains it."
  },
  {
   "property": "C111",
   "status": "proved",
   "theorems": [
    "C111_every_double_has_its_layer",
    "C111_layers_tile_the_target",
    "C111_half_space_zones_are_nested",
    "C111_layered_zones_are_nested",
    "C111_sphere_zones_are_nested"
   ],
   "note": "Proved for binary64 with any math library. C33 and C32 are the exact-arithmetic counterparts."
  },
  {
   "property": "C112",
   "status": "proved",
   "theorems": [
    "C112_collision_geometries_are_distributed_as_stated",
    "C112_free_flight_impact_parameters"
   ],
   "note": "Proved in exact arithmetic as: the quantity is at most r exactly for the random numbers up to the distribution function at r. That rand::random is uniform is not modelled. Random number 0: C109."
  },
  {
   "property": "C113",
   "status": "proved",
   "theorems": [
    "C113_simple_and_compound_list",
    "C113_tagged_and_plain_list",
    "C113_fortran_and_python_list",
    "C113_simple_python_and_c_list"
   ],
   "note": "The first two for any number type (density not -0), the last two in exact arithmetic for unit directions accepted by the asserts of the Python functions. The Python function shows stopped particles with energy 0 (C71), which the third theorem allows. energy_origin of the incident ion differs (C62) but no row shows it; same_physics (C81) was weakened accordingly."
  },
  {
   "property": "C114",
   "status": "proved",
   "theorems": [
    "C114_every_requested_ion_is_accounted_for",
    "C114_numbers_add_up"
   ],
   "note": "For any number type. The sum is over the N of the entries that have a charge number: input() does not check the length of the N list (C51)."
  },
  {
   "property": "C115",
   "status": "proved",
   "theorems": [
    "C115_classical_integral",
    "C115_mendenhall_weller_rule",
    "C115_angle_range"
   ],
   "note": "Over the reals, at an exact root of the distance of closest approach (C45 bounds the distance of the computed one from it). No bound on the quadrature error is claimed."
  },
  {
   "property": "C116",
   "status": "proved",
   "theorems": [
    "C116_magic_formula",
    "C116_angle_range"
   ],
   "note": "Over the reals. MAGIC with LENZ_JENSEN panics (C50)."
  },
  {
   "property": "C117",
   "status": "proved",
   "theorems": [
    "C117_accepted_exactly_when_consistent",
    "C117_same_for_every_stream"
   ],
   "note": "For any number type. The lists that are not checked (material Ec; particle N, Ec, Es beyond their being long enough) are the subject of C51. TOML parsing and HDF5 reading are not modelled; the geometry constructors enter as their result (their own checks: C33, C34, C38)."
  },
  {
   "property": "C118",
   "status": "proved",
   "theorems": [
    "C118_gauss_mehler_converges",
    "C118_classical_angle_is_unique"
   ],
   "note": "Real arithmetic; the classical angle is Coquelicot's improper Riemann integral (is_RInt_gen) of SpecAngle.scattering_density over (r0, infinity)."
  },
  {
   "property": "C119",
   "status": "proved",
   "theorems": [
    "C119_coulomb_scattering_is_rutherford",
    "C44_coulomb_turning_point"
   ],
   "note": "Real arithmetic. The classical angle is evaluated in closed form as pi - 4 atan(p/r0)."
  },
  {
   "property": "C120",
   "status": "proved",
   "theorems": [
    "C120_homogeneous_targets",
    "C120_layered_targets",
    "C120_layers_are_thick",
    "C120_meshed_targets"
   ],
   "note": "For any number type (C120_layers_are_thick over R). Together with C117 this says which inputs run at all. That a layer or cell without a correction factor is silently dropped is C34; panics inside the geo and parry3d crates are not modelled."
  },
  {
   "property": "C121",
   "status": "proved",
   "theorems": [
    "C121_features_do_not_interfere",
    "C121_plain_build",
    "C121_one_energy_bin_refuted"
   ],
   "note": "For every number type. The guard (two bins per axis) is shown to be needed by C121_one_energy_bin_refuted."
  },
  {
   "property": "C122",
   "status": "proved",
   "theorems": [
    "C122_closer_collisions_deflect_more",
    "C122_closer_collisions_transfer_more_energy",
    "C122_head_on",
    "C122_coulomb"
   ],
   "note": "Over R, at exact turning points (C45, C78, C79, C95 bound how far the root finders are from them). The MAGIC fit is covered for head-on collisions only: the claim does not assert monotonicity for it, nor positivity of Gauss-Legendre angles (C96: they are off by up to 3e-6)."
  },
  {
   "property": "C123",
   "status": "proved",
   "theorems": [
    "C123_read_as_written",
    "C123_defaults_of_the_library",
    "C123_required_keys"
   ],
   "note": "The document is the tree of TOML values; the text-to-tree parser (syntax, duplicate keys) and the decimal parser of unit strings are not modelled (the latter is a parameter). The derive(Deserialize) semantics is modelled by hand; builds with the features distributions and hdf5_input require further keys that are not covered."
  },
  {
   "property": "C124",
   "status": "partial",
   "theorems": [
    "C124_indices_used_partial",
    "C124_single_index_refuted",
    "C124_unknown_keys_refuted"
   ],
   "note": "REFUTED: a single interaction index, whatever its value, is replaced by 0 (input.rs tests len() <= 1 instead of an omitted key), so a one-species target or a one-entry beam cannot select another row of the interaction tables; and unknown keys (a misspelt track_recoil, say) are ignored silently, the default taking their place. Proved: two or more indices are used as given (C52 does the same for the particles)."
  },
  {
   "property": "C125",
   "status": "proved",
   "theorems": [
    "C125_faster_projectiles_deflect_less",
    "C125_coulomb",
    "C125_faster_projectiles_lose_a_smaller_share",
    "C125_classical_angle"
   ],
   "note": "Exact arithmetic, at the exact turning point. x^2 (1 + x |phi'|/phi) is shown to be nondecreasing for each coefficient table; strictness of the classical (limit) angle is not claimed."
  },
  {
   "property": "C126",
   "status": "proved",
   "theorems": [
    "C126_only_its_own_files",
    "C126_rejected_run_changes_nothing",
    "C126_finished_run",
    "C126_old_contents_do_not_matter",
    "C126_runs_do_not_interfere",
    "C126_died_run",
    "C126_can_finish",
    "C126_list_files",
    "C126_target_asked_for"
   ],
   "note": "Builds without hdf5_input, distributions and no_list_output. Rows are atomic and the text of numbers is not modelled; the file system is a map from paths to contents (no aliases, no concurrent writers)."
  },
  {
   "property": "C127",
   "status": "proved",
   "theorems": [
    "C127_axes_read_as_written",
    "C127_axes_required",
    "C127_same_lists_and_summary",
    "C127_counts"
   ],
   "note": "Which bin a particle falls into is C60; the text of distributions.toml is not modelled."
  },
  {
   "property": "C128",
   "status": "partial",
   "theorems": [
    "C128_enough_bins_partial",
    "C128_one_bin_refuted"
   ],
   "note": "REFUTED as stated: one or zero bins of energy or angle are accepted by the input and then every run of this build panics at the first particle (C128_one_bin_refuted); with at least two bins on every axis it holds (C128_enough_bins_partial)."
  },
  {
   "property": "C129",
   "status": "proved",
   "theorems": [
    "C129_averages",
    "C129_averages_are_values"
   ],
   "note": "Exact arithmetic, without high-energy free flight paths; average = improper Riemann integral over (0,1). That rand::random is uniform is not modelled."
  },
  {
   "property": "C130",
   "status": "partial",
   "theorems": [
    "C130_order_is_kept",
    "C130_axes_from_zero_partial",
    "C130_nan_refuted",
    "C130_edge_refuted"
   ],
   "note": "REFUTED for values on an edge (with 100 bins from 0 to 1000, the tabulated edge 13 is counted in bin 12) and for positions that are not numbers (counted in the first bin); order and bounds are proved."
  },
  {
   "property": "C131",
   "status": "proved",
   "theorems": [
    "C131_normalised",
    "C131_accepted_ions",
    "C131_recoils",
    "C131_rotation",
    "C131_any_number_of_rotations"
   ],
   "note": "Outside these ranges it fails: C86_direction_refuted (squares overflow) and C107's refutation (a direction on the x axis). Refraction and reflection at the surface are not covered here (C107 in exact arithmetic)."
  },
  {
   "property": "C132",
   "status": "proved",
   "theorems": [
    "C132_energy_transfer",
    "C132_collision",
    "C132_flight"
   ],
   "note": "Tolerances also have absolute parts of about 2^-1073 for energies near the smallest doubles. For masses that are almost the same C105's refutation applies. Without rounding: C10, C22."
  }
 ]
}