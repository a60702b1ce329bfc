{
 "id": "q44",
 "failed": [
  "C114_every_requested_ion_is_accounted_for",
  "C114_numbers_add_up",
  "C56_one_chunk",
  "C56_parallel_serial"
 ],
 "proofs": [
  "parallel_serial"
 ],
 "dropped": [],
 "err": null,
 "unfailed_claims": []
}