{
 "id": "g27",
 "failed": [
  "C38_outside_lookup_is_a_nearest_cell"
 ],
 "proofs": [
  "C38_outside_lookup_is_a_nearest_cell"
 ],
 "dropped": [],
 "err": null,
 "unfailed_claims": []
}