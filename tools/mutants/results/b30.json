{
 "id": "b30",
 "failed": [
  "C88_loss_of_a_step_partial",
  "C89_stopping_only_slows_partial",
  "C90_energy_of_a_cascade_partial"
 ],
 "proofs": [
  "loss_formula"
 ],
 "dropped": [],
 "err": null,
 "unfailed_claims": [],
 "tightened": [
  "C88_loss_of_a_step_partial",
  "C88_refuted_local_loss_without_a_collision"
 ]
}