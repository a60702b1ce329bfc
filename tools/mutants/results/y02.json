{
 "id": "y02",
 "failed": [
  "C54_chunking",
  "C54_every_ion_once",
  "C54_rejects",
  "C55_number_of_chunks_partial",
  "C57_summary",
  "C58_applies",
  "C58_list_files",
  "C58_totals",
  "C59_completed_chunks_partial"
 ],
 "proofs": [
  "chunks_fuel_cut",
  "C58_applies"
 ],
 "dropped": [],
 "err": null,
 "unfailed_claims": []
}