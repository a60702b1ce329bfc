{
 "id": "i33",
 "failed": [
  "C41_lennard_jones_derivative_partial",
  "C41_newton_variable_lennard_jones_refuted",
  "C42_roots_are_turning_points_partial",
  "C78_newton_lennard_jones_refuted"
 ],
 "proofs": [
  "doca_factor",
  "lj_deriv",
  "lj_at_half"
 ],
 "dropped": [],
 "err": null,
 "unfailed_claims": []
}