{
 "id": "l13",
 "failed": [
  "C63_arrays_aligned",
  "C63_nonvacuous",
  "C63_tags_follow_ions"
 ],
 "proofs": [
  "tagged_loop_inv",
  "C63_nonvacuous"
 ],
 "dropped": [],
 "err": null,
 "unfailed_claims": []
}