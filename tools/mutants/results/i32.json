{
 "id": "i32",
 "failed": [
  "C41_lennard_jones_derivative_partial",
  "C42_roots_are_turning_points_partial"
 ],
 "proofs": [
  "doca_factor",
  "lj65_deriv"
 ],
 "dropped": [],
 "err": null,
 "unfailed_claims": []
}