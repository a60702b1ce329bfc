{
 "id": "i38",
 "failed": [
  "C43_polynomial_roots_are_turning_points",
  "C95_polynomial_root_finder"
 ],
 "proofs": [
  "polynomial_factor",
  "lj_polynomial"
 ],
 "dropped": [],
 "err": null,
 "unfailed_claims": []
}