{
 "id": "l14",
 "failed": [
  "C63_arrays_aligned",
  "C63_nonvacuous",
  "C63_tags_follow_ions"
 ],
 "proofs": [
  "tagged_collect_spec",
  "C63_nonvacuous"
 ],
 "dropped": [],
 "err": null,
 "unfailed_claims": []
}