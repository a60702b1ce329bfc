{
 "id": "b46",
 "failed": [
  "C01_every_returned_particle_is_finished",
  "C02_ion_first_with_identity",
  "C03_recoils_come_from_one_species_and_inherit",
  "C04_no_recoil_tracking_one_particle",
  "C06_histories_append_only_and_end_at_final_point"
 ],
 "proofs": [
  "stack_loop_ok",
  "toy_is_not_trivial"
 ],
 "dropped": [],
 "err": null,
 "unfailed_claims": []
}