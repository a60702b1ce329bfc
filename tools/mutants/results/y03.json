{
 "id": "y03",
 "failed": [
  "C54_every_ion_once",
  "C56_one_chunk",
  "C56_parallel_serial",
  "C58_totals"
 ],
 "proofs": [
  "run_chunk_serial_app",
  "C54_every_ion_once",
  "C58_totals"
 ],
 "dropped": [],
 "err": null,
 "unfailed_claims": []
}