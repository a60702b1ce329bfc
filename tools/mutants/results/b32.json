{
 "id": "b32",
 "failed": [
  "C08_energies_never_negative",
  "C08_energies_never_negative_in_flight",
  "C15_displacement_of_a_step",
  "C15_flight_direction_is_the_direction_before_the_collision",
  "C15_path_lengths_telescope",
  "C19_refuted_reflected_particle_moves_on_outwards",
  "C21_electronic_stopping_inside",
  "C22_recorded_losses_of_a_step_partial",
  "C22_refuted_losses_overreported_when_energy_runs_out"
 ],
 "proofs": [
  "subtract_frame",
  "stopping_inside"
 ],
 "dropped": [],
 "err": null,
 "unfailed_claims": []
}