{
 "id": "s06",
 "failed": [
  "C126_finished_run"
 ],
 "proofs": [
  "C126_finished_run"
 ],
 "dropped": [],
 "err": null,
 "unfailed_claims": []
}