{
 "id": "b37",
 "failed": [
  "C08_energies_never_negative",
  "C08_energies_never_negative_in_flight",
  "C10_collision_conserves_energy_and_momentum",
  "C22_recorded_losses_of_a_step_partial",
  "C69_collision_energy_bookkeeping"
 ],
 "proofs": [
  "collision_step_inv",
  "r_collision_step"
 ],
 "dropped": [],
 "err": null,
 "unfailed_claims": []
}