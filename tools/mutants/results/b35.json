{
 "id": "b35",
 "failed": [
  "C01_every_returned_particle_is_finished",
  "C02_ion_first_with_identity",
  "C03_recoils_come_from_one_species_and_inherit",
  "C04_applies",
  "C04_no_recoil_tracking_one_particle",
  "C05_unfinished_particles_never_empty_the_stack_partial",
  "C06_histories_append_only_and_end_at_final_point"
 ],
 "proofs": [
  "keep_recoil_true",
  "C04_applies"
 ],
 "dropped": [],
 "err": null,
 "unfailed_claims": []
}