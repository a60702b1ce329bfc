{
 "id": "b43",
 "failed": [
  "C88_loss_of_a_step_partial",
  "C89_stopping_only_slows_partial"
 ],
 "proofs": [
  "strong_collision"
 ],
 "dropped": [],
 "err": null,
 "unfailed_claims": [],
 "tightened": [
  "C88_loss_of_a_step_partial",
  "C88_refuted_local_loss_without_a_collision"
 ]
}