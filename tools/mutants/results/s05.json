{
 "id": "s05",
 "failed": [
  "C126_died_run",
  "C126_finished_run",
  "C126_list_files",
  "C126_old_contents_do_not_matter",
  "C126_only_its_own_files",
  "C126_runs_do_not_interfere"
 ],
 "proofs": [
  "output_names_paths",
  "list_path_inj",
  "summary_not_list",
  "put_lists_at",
  "C126_finished_run",
  "C126_list_files"
 ],
 "dropped": [],
 "err": null,
 "unfailed_claims": []
}