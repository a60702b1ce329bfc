{
 "id": "i07",
 "failed": [
  "C40_lenz_jensen_refuted",
  "C40_screening_functions",
  "C41_newton_derivative_screened_partial",
  "C41_singularity_free_refuted",
  "C42_potential_exists",
  "C42_roots_are_turning_points_partial",
  "C45_newton_converges",
  "C46_head_on_high_energy_partial",
  "C77_gauss_mehler_angle",
  "C79_reported_point_usable_partial",
  "C79_reported_point_usable_refuted"
 ],
 "proofs": [
  "phi_R"
 ],
 "dropped": [],
 "err": null,
 "unfailed_claims": []
}