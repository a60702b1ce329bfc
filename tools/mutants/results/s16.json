{
 "id": "s16",
 "failed": [
  "C126_finished_run",
  "C126_list_files"
 ],
 "proofs": [
  "runner_parallel"
 ],
 "dropped": [],
 "err": null,
 "unfailed_claims": []
}