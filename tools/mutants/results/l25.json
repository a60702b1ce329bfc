{
 "id": "l25",
 "failed": [
  "C65_same_run_two_schedules_refuted",
  "C70_yield_start_outside_partial"
 ],
 "proofs": [
  "forward_backward_differ",
  "C70_yield_start_outside_partial"
 ],
 "dropped": [],
 "err": null,
 "unfailed_claims": []
}