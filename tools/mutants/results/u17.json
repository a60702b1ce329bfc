{
 "id": "u17",
 "failed": [
  "C118_gauss_mehler_converges",
  "C119_coulomb_scattering_is_rutherford",
  "C48_no_potential_no_deflection",
  "C77_gauss_mehler_angle"
 ],
 "proofs": [
  "gauss_mehler_R"
 ],
 "dropped": [],
 "err": null,
 "unfailed_claims": []
}