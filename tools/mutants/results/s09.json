{
 "id": "s09",
 "failed": [
  "C126_died_run",
  "C126_only_its_own_files",
  "C126_rejected_run_changes_nothing",
  "C126_runs_do_not_interfere"
 ],
 "proofs": [
  "C126_only_its_own_files",
  "C126_rejected_run_changes_nothing",
  "C126_runs_do_not_interfere",
  "C126_died_run"
 ],
 "dropped": [],
 "err": null,
 "unfailed_claims": []
}