{
 "id": "s18",
 "failed": [
  "C114_every_requested_ion_is_accounted_for",
  "C114_numbers_add_up",
  "C126_finished_run",
  "C126_list_files",
  "C56_applies",
  "C56_one_chunk",
  "C56_parallel_serial"
 ],
 "proofs": [
  "parallel_serial",
  "C56_applies"
 ],
 "dropped": [],
 "err": null,
 "unfailed_claims": []
}