{
 "id": "i15",
 "failed": [
  "C42_roots_are_turning_points_partial",
  "C43_polynomial_roots_are_turning_points",
  "C47_crossing_point"
 ],
 "proofs": [
  "doca_factor",
  "polynomial_factor",
  "lj65_sign"
 ],
 "dropped": [],
 "err": null,
 "unfailed_claims": []
}