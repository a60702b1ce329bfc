{
 "id": "y12",
 "failed": [
  "C54_every_ion_once",
  "C58_applies",
  "C58_totals",
  "C59_applies",
  "C59_energy_losses_refuted"
 ],
 "proofs": [
  "C54_every_ion_once",
  "C58_totals",
  "C58_applies",
  "C59_energy_losses_refuted",
  "C59_applies"
 ],
 "dropped": [],
 "err": null,
 "unfailed_claims": [
  "C57"
 ]
}