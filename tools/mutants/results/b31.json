{
 "id": "b31",
 "failed": [
  "C88_loss_of_a_step_partial",
  "C89_refuted_negative_stopping",
  "C89_stopping_only_slows_partial",
  "C90_energy_of_a_cascade_partial",
  "C90_refuted_energy_is_created"
 ],
 "proofs": [
  "loss_formula",
  "forward_backward_differ",
  "two_sputtered_true",
  "grazing_run"
 ],
 "dropped": [],
 "err": null,
 "unfailed_claims": [],
 "tightened": [
  "C88_loss_of_a_step_partial",
  "C88_refuted_local_loss_without_a_collision"
 ]
}