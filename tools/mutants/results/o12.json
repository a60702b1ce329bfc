{
 "id": "o12",
 "failed": [
  "C58_list_files",
  "C58_totals"
 ],
 "proofs": [
  "output_lists_rows"
 ],
 "dropped": [],
 "err": null,
 "unfailed_claims": []
}