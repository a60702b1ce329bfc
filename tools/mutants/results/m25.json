{
 "id": "m25",
 "failed": [
  "C65_same_run_two_schedules_refuted"
 ],
 "proofs": [
  "forward_backward_differ",
  "two_sputtered_true"
 ],
 "dropped": [],
 "err": null,
 "unfailed_claims": []
}