{
 "id": "m25r",
 "failed": [
  "C65_same_run_two_schedules_refuted",
  "C85_stopping_formulas"
 ],
 "proofs": [
  "forward_backward_differ",
  "two_sputtered_true",
  "low_spec"
 ],
 "dropped": [],
 "err": null,
 "unfailed_claims": [],
 "tightened": [
  "C85_stopping_formulas"
 ]
}