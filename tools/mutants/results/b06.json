{
 "id": "b06",
 "failed": [
  "C44_coulomb_turning_point"
 ],
 "proofs": [
  "coulomb_doca_R"
 ],
 "dropped": [],
 "err": null,
 "unfailed_claims": []
}