{
 "id": "o03",
 "failed": [
  "C54_applies",
  "C54_rejects",
  "C55_applies",
  "C55_number_of_chunks_refuted",
  "C56_applies",
  "C57_applies",
  "C57_summary",
  "C58_applies",
  "C58_totals",
  "C59_applies",
  "C59_energy_losses_refuted"
 ],
 "proofs": [
  "position_eq_some",
  "increment_map",
  "C54_applies",
  "C55_number_of_chunks_refuted",
  "C55_applies",
  "C56_applies",
  "C57_applies",
  "C58_applies",
  "C59_energy_losses_refuted",
  "C59_applies"
 ],
 "dropped": [],
 "err": null,
 "unfailed_claims": []
}