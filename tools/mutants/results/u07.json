{
 "id": "u07",
 "failed": [
  "C105_energies_never_negative_partial",
  "C132_collision",
  "C132_flight",
  "C88_loss_of_a_step_partial",
  "C89_stopping_only_slows_partial",
  "C90_energy_of_a_cascade_partial"
 ],
 "proofs": [
  "collision_step_inv"
 ],
 "dropped": [],
 "err": null,
 "unfailed_claims": []
}