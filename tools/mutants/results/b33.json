{
 "id": "b33",
 "failed": [
  "C07_outward_ion_leaves_partial",
  "C07_refuted_parallel_ion_never_ends",
  "C08_energies_never_negative",
  "C08_energies_never_negative_in_flight",
  "C13_refuted_rotation_onto_the_axis",
  "C15_displacement_of_a_step",
  "C15_flight_direction_is_the_direction_before_the_collision",
  "C15_path_lengths_telescope",
  "C19_refuted_reflected_particle_moves_on_outwards",
  "C21_electronic_stopping_outside",
  "C22_recorded_losses_of_a_step_partial"
 ],
 "proofs": [
  "subtract_frame",
  "stopping_outside",
  "free_step",
  "r_free"
 ],
 "dropped": [],
 "err": null,
 "unfailed_claims": []
}