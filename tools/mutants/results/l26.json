{
 "id": "l26",
 "failed": [
  "C102_reflection_coefficient",
  "C102_sputtering_yield",
  "C65_same_run_two_schedules_refuted"
 ],
 "proofs": [
  "incidence_near",
  "forward_backward_differ",
  "two_sputtered_true"
 ],
 "dropped": [],
 "err": null,
 "unfailed_claims": []
}