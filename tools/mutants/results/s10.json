{
 "id": "s10",
 "failed": [
  "C126_died_run",
  "C126_only_its_own_files",
  "C126_runs_do_not_interfere"
 ],
 "proofs": [
  "truncated_at"
 ],
 "dropped": [],
 "err": null,
 "unfailed_claims": []
}