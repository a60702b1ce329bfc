{
 "id": "q43",
 "failed": [
  "C114_every_requested_ion_is_accounted_for",
  "C114_numbers_add_up",
  "C54_applies",
  "C54_chunking",
  "C54_every_ion_once",
  "C54_rejects",
  "C55_number_of_chunks_partial",
  "C56_parallel_serial",
  "C57_summary",
  "C58_list_files",
  "C58_totals",
  "C59_completed_chunks_partial"
 ],
 "proofs": [
  "loop_inv",
  "C54_rejects",
  "C54_applies",
  "C55_number_of_chunks_partial",
  "C56_parallel_serial"
 ],
 "dropped": [],
 "err": null,
 "unfailed_claims": []
}