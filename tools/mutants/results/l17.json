{
 "id": "l17",
 "failed": [
  "C71_reported_energy_partial",
  "C71_stopped_ion_reported_refuted"
 ],
 "proofs": [
  "C71_stopped_ion_reported_refuted",
  "C71_reported_energy_partial"
 ],
 "dropped": [],
 "err": null,
 "unfailed_claims": []
}