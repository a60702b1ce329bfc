{
 "id": "l16",
 "failed": [
  "C63_arrays_aligned",
  "C63_nonvacuous",
  "C63_tags_follow_ions",
  "C84_compound_tagged_bca_list_c"
 ],
 "proofs": [
  "tagged_inv",
  "C63_nonvacuous",
  "C84_compound_tagged_bca_list_c"
 ],
 "dropped": [],
 "err": null,
 "unfailed_claims": []
}