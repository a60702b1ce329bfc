{
 "id": "s17",
 "failed": [
  "C114_every_requested_ion_is_accounted_for",
  "C114_numbers_add_up",
  "C121_features_do_not_interfere",
  "C121_plain_build",
  "C126_applies",
  "C126_finished_run",
  "C126_list_files",
  "C54_chunking",
  "C54_every_ion_once",
  "C54_rejects",
  "C55_number_of_chunks_partial",
  "C55_number_of_chunks_refuted",
  "C57_summary",
  "C58_applies",
  "C58_list_files",
  "C58_totals",
  "C59_completed_chunks_partial"
 ],
 "proofs": [
  "chunks_fuel_cut",
  "C55_number_of_chunks_refuted",
  "C58_applies",
  "C126_applies"
 ],
 "dropped": [],
 "err": null,
 "unfailed_claims": []
}