{
 "id": "l18",
 "failed": [
  "C102_simple_bca",
  "C67_one_species_partial"
 ],
 "proofs": [
  "C67_one_species_partial",
  "C102_simple_bca"
 ],
 "dropped": [],
 "err": null,
 "unfailed_claims": []
}