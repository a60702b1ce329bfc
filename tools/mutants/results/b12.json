{
 "id": "b12",
 "failed": [
  "C48_no_potential_no_deflection",
  "C77_gauss_mehler_angle"
 ],
 "proofs": [
  "gauss_mehler_R"
 ],
 "dropped": [],
 "err": null,
 "unfailed_claims": []
}