{
 "id": "o04",
 "failed": [
  "C57_summary",
  "C58_totals"
 ],
 "proofs": [
  "describes_step",
  "sps_update_total_counts"
 ],
 "dropped": [],
 "err": null,
 "unfailed_claims": []
}