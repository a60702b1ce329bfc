{
 "id": "o23",
 "failed": [
  "C108_summary"
 ],
 "proofs": [
  "C108_summary"
 ],
 "dropped": [],
 "err": null,
 "unfailed_claims": []
}