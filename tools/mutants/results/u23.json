{
 "id": "u23",
 "failed": [
  "C54_chunking",
  "C54_every_ion_once",
  "C54_rejects",
  "C55_number_of_chunks_partial",
  "C55_number_of_chunks_refuted",
  "C57_summary",
  "C58_list_files",
  "C58_totals",
  "C59_completed_chunks_partial"
 ],
 "proofs": [
  "chunks_cut",
  "C55_number_of_chunks_refuted"
 ],
 "dropped": [],
 "err": null,
 "unfailed_claims": []
}