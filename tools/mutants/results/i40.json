{
 "id": "i40",
 "failed": [
  "C43_polynomial_roots_are_turning_points",
  "C43_zero_is_not_a_root",
  "C95_polynomial_root_finder"
 ],
 "proofs": [
  "polynomial_factor",
  "C43_zero_is_not_a_root",
  "core_negative"
 ],
 "dropped": [],
 "err": null,
 "unfailed_claims": []
}