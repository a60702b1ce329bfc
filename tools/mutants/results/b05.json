{
 "id": "b05",
 "failed": [
  "C45_newton_converges",
  "C46_head_on_high_energy_partial",
  "C46_head_on_low_energy_refuted",
  "C65_same_run_two_schedules_refuted",
  "C78_newton_lennard_jones_refuted",
  "C79_reported_point_usable_partial",
  "C79_reported_point_usable_refuted"
 ],
 "proofs": [
  "newton_guess_R",
  "head_on_fails",
  "forward_backward_differ",
  "two_sputtered_true"
 ],
 "dropped": [],
 "err": null,
 "unfailed_claims": []
}