{
 "id": "i25",
 "failed": [
  "C41_newton_derivative_screened_partial",
  "C41_singularity_free_refuted",
  "C42_roots_are_turning_points_partial",
  "C45_newton_converges",
  "C46_head_on_high_energy_partial",
  "C46_head_on_low_energy_refuted",
  "C79_reported_point_usable_partial",
  "C79_reported_point_usable_refuted"
 ],
 "proofs": [
  "doca_screened_R",
  "head_on_fails"
 ],
 "dropped": [],
 "err": null,
 "unfailed_claims": []
}