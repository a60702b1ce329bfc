{
 "id": "b09",
 "failed": [
  "C48_no_potential_no_deflection",
  "C77_gauss_mehler_angle",
  "C79_reported_point_usable_partial",
  "C79_reported_point_usable_refuted"
 ],
 "proofs": [
  "gauss_mehler_R",
  "C77_gauss_mehler_angle",
  "C79_reported_point_usable_partial",
  "C79_reported_point_usable_refuted"
 ],
 "dropped": [],
 "err": null,
 "unfailed_claims": []
}