{
 "id": "b36",
 "failed": [
  "C08_energies_never_negative",
  "C08_energies_never_negative_in_flight",
  "C10_collision_conserves_energy_and_momentum",
  "C22_recorded_losses_of_a_step_partial",
  "C29_recoil_pays_the_average_bulk_binding_energy_partial",
  "C69_collision_energy_bookkeeping"
 ],
 "proofs": [
  "collision_step_inv"
 ],
 "dropped": [],
 "err": null,
 "unfailed_claims": []
}