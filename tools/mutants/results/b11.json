{
 "id": "b11",
 "failed": [
  "C48_no_potential_no_deflection",
  "C77_gauss_mehler_angle",
  "C79_negative_radicand_panics"
 ],
 "proofs": [
  "gauss_mehler_R",
  "sf_negative_radicand_panics"
 ],
 "dropped": [],
 "err": null,
 "unfailed_claims": []
}