{
 "id": "s07",
 "failed": [
  "C126_can_finish",
  "C126_died_run",
  "C126_finished_run",
  "C126_list_files"
 ],
 "proofs": [
  "loop_at_chunk_loop",
  "chunk_loop_loop_at"
 ],
 "dropped": [],
 "err": null,
 "unfailed_claims": []
}