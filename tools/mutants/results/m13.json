{
 "id": "m13",
 "failed": [
  "C07_outward_ion_leaves_partial",
  "C07_refuted_parallel_ion_never_ends",
  "C08_energies_never_negative",
  "C08_energies_never_negative_in_flight",
  "C13_refuted_rotation_onto_the_axis",
  "C15_flight_direction_is_the_direction_before_the_collision",
  "C18_barrier_decides_by_normal_energy",
  "C18_entering_the_barrier",
  "C18_no_crossing_no_change",
  "C19_reflected_direction_points_to_the_material_partial",
  "C19_refuted_reflected_particle_moves_on_outwards",
  "C20_entering_moves_towards_the_surface_partial",
  "C20_refuted_deep_entry_turns_the_particle_around",
  "C22_recorded_losses_of_a_step_partial",
  "C75_flight_after_crossing_refuted",
  "C75_flight_direction_partial"
 ],
 "proofs": [
  "surface_inv",
  "outside_step",
  "r_reflection"
 ],
 "dropped": [],
 "err": null,
 "unfailed_claims": []
}