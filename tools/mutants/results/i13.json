{
 "id": "i13",
 "failed": [
  "C42_four_eight_refuted",
  "C43_polynomial_roots_are_turning_points"
 ],
 "proofs": [
  "polynomial_factor",
  "C42_four_eight_refuted"
 ],
 "dropped": [],
 "err": null,
 "unfailed_claims": []
}