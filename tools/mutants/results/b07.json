{
 "id": "b07",
 "failed": [
  "C65_same_run_two_schedules_refuted",
  "C80_root_finder_option_ignored_refuted"
 ],
 "proofs": [
  "C80_root_finder_option_ignored_refuted",
  "forward_backward_differ"
 ],
 "dropped": [],
 "err": null,
 "unfailed_claims": []
}