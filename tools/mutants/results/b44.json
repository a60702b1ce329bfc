{
 "id": "b44",
 "failed": [
  "C01_every_returned_particle_is_finished",
  "C02_ion_first_with_identity",
  "C03_recoils_come_from_one_species_and_inherit",
  "C04_applies",
  "C04_no_recoil_tracking_one_particle",
  "C05_unfinished_particles_never_empty_the_stack_partial",
  "C06_histories_append_only_and_end_at_final_point",
  "C07_outward_ion_leaves_partial",
  "C07_refuted_parallel_ion_never_ends",
  "C08_energies_never_negative",
  "C08_energies_never_negative_in_flight",
  "C13_refuted_rotation_onto_the_axis",
  "C15_displacement_of_a_step",
  "C15_flight_direction_is_the_direction_before_the_collision",
  "C15_path_lengths_telescope",
  "C19_refuted_reflected_particle_moves_on_outwards",
  "C22_recorded_losses_of_a_step_partial"
 ],
 "proofs": [
  "bca_step_inv",
  "free_step",
  "step_sound",
  "r_free",
  "toy_runs",
  "toy_is_not_trivial",
  "C04_applies"
 ],
 "dropped": [],
 "err": null,
 "unfailed_claims": [
  "C18"
 ],
 "note": "C18 is about the surface function itself, which the edit leaves alone; its use in a step is C01, C15, C19."
}