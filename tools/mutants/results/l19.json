{
 "id": "l19",
 "failed": [
  "C67_other_species_refuted",
  "C67_run_panics_refuted"
 ],
 "proofs": [
  "C67_other_species_refuted",
  "C67_run_panics_refuted"
 ],
 "dropped": [],
 "err": null,
 "unfailed_claims": []
}