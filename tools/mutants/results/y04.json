{
 "id": "y04",
 "failed": [
  "C56_one_chunk",
  "C56_parallel_serial"
 ],
 "proofs": [
  "parallel_serial"
 ],
 "dropped": [],
 "err": null,
 "unfailed_claims": []
}