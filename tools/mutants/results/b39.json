{
 "id": "b39",
 "failed": [
  "C08_energies_never_negative",
  "C08_energies_never_negative_in_flight",
  "C10_collision_conserves_energy_and_momentum",
  "C15_recoils_start_along_their_direction",
  "C22_recorded_losses_of_a_step_partial",
  "C63_nonvacuous",
  "C69_collision_energy_bookkeeping"
 ],
 "proofs": [
  "collision_step_inv",
  "C63_nonvacuous"
 ],
 "dropped": [],
 "err": null,
 "unfailed_claims": [
  "C75"
 ],
 "tightened": [
  "C15_recoils_start_along_their_direction"
 ]
}