{
 "id": "l15",
 "failed": [
  "C63_arrays_aligned",
  "C63_tags_follow_ions"
 ],
 "proofs": [
  "tagged_inv"
 ],
 "dropped": [],
 "err": null,
 "unfailed_claims": []
}