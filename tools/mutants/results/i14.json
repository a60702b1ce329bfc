{
 "id": "i14",
 "failed": [
  "C100_wells",
  "C42_roots_are_turning_points_partial",
  "C43_polynomial_roots_are_turning_points",
  "C47_crossing_point",
  "C78_newton_lennard_jones_refuted"
 ],
 "proofs": [
  "doca_factor",
  "polynomial_factor",
  "lj_sign",
  "lj_turning",
  "lj_well"
 ],
 "dropped": [],
 "err": null,
 "unfailed_claims": [],
 "tightened": [
  "C100_wells"
 ],
 "note": "No claimed theorem failed before C100 was added; it fails now."
}