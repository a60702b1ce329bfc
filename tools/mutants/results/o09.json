{
 "id": "o09",
 "failed": [
  "C58_applies",
  "C58_list_files",
  "C58_totals"
 ],
 "proofs": [
  "output_lists_rows",
  "C58_applies"
 ],
 "dropped": [],
 "err": null,
 "unfailed_claims": []
}