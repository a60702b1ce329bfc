{
 "id": "g25",
 "failed": [
  "C38_outside_lookup_is_a_nearest_cell"
 ],
 "proofs": [
  "nearest_loop_spec"
 ],
 "dropped": [],
 "err": null,
 "unfailed_claims": []
}