{
 "id": "g26",
 "failed": [
  "C38_inside_lookup"
 ],
 "proofs": [
  "C38_inside_lookup"
 ],
 "dropped": [],
 "err": null,
 "unfailed_claims": []
}