{
 "id": "p07",
 "failed": [
  "C08_energies_never_negative",
  "C08_energies_never_negative_in_flight",
  "C16_surface_refraction_is_exact",
  "C17_in_and_out_restores_the_particle",
  "C18_barrier_decides_by_normal_energy",
  "C18_entering_the_barrier",
  "C19_reflected_direction_points_to_the_material_partial",
  "C19_refuted_reflected_particle_moves_on_outwards",
  "C20_entering_moves_towards_the_surface_partial",
  "C20_refuted_deep_entry_turns_the_particle_around"
 ],
 "proofs": [
  "surface_refraction_value"
 ],
 "dropped": [],
 "err": null,
 "unfailed_claims": []
}