{
 "id": "q21",
 "failed": [
  "C01_every_returned_particle_is_finished",
  "C02_ion_first_with_identity",
  "C03_recoils_come_from_one_species_and_inherit",
  "C04_no_recoil_tracking_one_particle",
  "C05_refuted_finished_particles_panic",
  "C06_histories_append_only_and_end_at_final_point",
  "C114_every_requested_ion_is_accounted_for",
  "C114_numbers_add_up",
  "C58_totals"
 ],
 "proofs": [
  "single_finished_panics"
 ],
 "dropped": [],
 "err": null,
 "unfailed_claims": []
}