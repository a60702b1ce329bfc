{
 "id": "b04",
 "failed": [
  "C45_newton_converges",
  "C45_newton_reports_only_converged_iterates",
  "C46_head_on_high_energy_partial",
  "C46_head_on_low_energy_refuted",
  "C79_reported_point_usable_partial",
  "C79_reported_point_usable_refuted"
 ],
 "proofs": [
  "newton_loop_nl",
  "newton_loop_report",
  "newton_loop_from_nan",
  "head_on_fails"
 ],
 "dropped": [],
 "err": null,
 "unfailed_claims": []
}