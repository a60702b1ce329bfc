{
 "id": "s12",
 "failed": [
  "C126_finished_run",
  "C126_list_files",
  "C126_old_contents_do_not_matter"
 ],
 "proofs": [
  "C126_finished_run",
  "C126_list_files",
  "C126_old_contents_do_not_matter"
 ],
 "dropped": [],
 "err": null,
 "unfailed_claims": []
}