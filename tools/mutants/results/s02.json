{
 "id": "s02",
 "failed": [
  "C126_finished_run",
  "C126_list_files",
  "C126_old_contents_do_not_matter",
  "C126_only_its_own_files",
  "C126_runs_do_not_interfere"
 ],
 "proofs": [
  "output_names_paths",
  "C126_list_files"
 ],
 "dropped": [],
 "err": null,
 "unfailed_claims": []
}