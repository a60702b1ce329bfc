{
 "id": "s11",
 "failed": [
  "C126_finished_run",
  "C126_list_files"
 ],
 "proofs": [
  "C126_finished_run",
  "C126_list_files"
 ],
 "dropped": [],
 "err": null,
 "unfailed_claims": []
}