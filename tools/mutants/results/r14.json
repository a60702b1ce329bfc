{
 "id": "r14",
 "failed": [
  "C119_coulomb_scattering_is_rutherford",
  "C44_coulomb_turning_point"
 ],
 "proofs": [
  "coulomb_doca_R"
 ],
 "dropped": [],
 "err": null,
 "unfailed_claims": []
}