{
 "id": "o06",
 "failed": [
  "C57_summary",
  "C58_totals"
 ],
 "proofs": [
  "sps_print_describes",
  "C58_totals"
 ],
 "dropped": [],
 "err": null,
 "unfailed_claims": []
}