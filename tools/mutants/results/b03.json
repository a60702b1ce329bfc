{
 "id": "b03",
 "failed": [
  "C45_newton_converges",
  "C45_newton_reports_only_converged_iterates",
  "C46_head_on_high_energy_partial",
  "C46_head_on_low_energy_refuted",
  "C65_same_run_two_schedules_refuted",
  "C67_one_species_runs",
  "C72_nonvacuous",
  "C74_normal_incidence_run_refuted",
  "C78_newton_lennard_jones_refuted",
  "C79_reported_point_usable_partial",
  "C79_reported_point_usable_refuted"
 ],
 "proofs": [
  "newton_loop_nl",
  "newton_loop_report",
  "newton_loop_from_nan",
  "head_on_fails",
  "newton_lj_wrong",
  "forward_backward_differ",
  "two_sputtered_true",
  "C67_one_species_runs",
  "C72_nonvacuous",
  "C74_normal_incidence_run_refuted"
 ],
 "dropped": [],
 "err": null,
 "unfailed_claims": []
}