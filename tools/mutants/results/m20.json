{
 "id": "m20",
 "failed": [
  "C01_every_returned_particle_is_finished",
  "C02_ion_first_with_identity",
  "C03_recoils_come_from_one_species_and_inherit",
  "C04_no_recoil_tracking_one_particle",
  "C05_unfinished_particles_never_empty_the_stack_partial",
  "C06_histories_append_only_and_end_at_final_point",
  "C08_energies_never_negative",
  "C08_energies_never_negative_in_flight",
  "C15_displacement_of_a_step",
  "C15_flight_direction_is_the_direction_before_the_collision",
  "C15_path_lengths_telescope",
  "C19_refuted_reflected_particle_moves_on_outwards",
  "C22_recorded_losses_of_a_step_partial",
  "C58_totals",
  "C63_tags_follow_ions",
  "C65_reflection_any_schedule_partial",
  "C71_reported_energy_partial",
  "C71_stopped_ion_reported_refuted",
  "C72_layered_python_lists",
  "C72_python_lists",
  "C72_reflected_velocity",
  "C75_flight_after_crossing_refuted",
  "C75_flight_direction_partial"
 ],
 "proofs": [
  "boundary_ok",
  "boundary_cases",
  "stays_outside"
 ],
 "dropped": [],
 "err": null,
 "unfailed_claims": []
}