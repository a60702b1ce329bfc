{
 "id": "i41",
 "failed": [
  "C43_polynomial_roots_are_turning_points",
  "C95_polynomial_root_finder"
 ],
 "proofs": [
  "polynomial_factor",
  "transform_inv",
  "transform_mono"
 ],
 "dropped": [],
 "err": null,
 "unfailed_claims": []
}