{
 "id": "l07",
 "failed": [
  "C63_arrays_aligned",
  "C63_tags_follow_ions"
 ],
 "proofs": [
  "C63_arrays_aligned",
  "C63_tags_follow_ions"
 ],
 "dropped": [],
 "err": null,
 "unfailed_claims": []
}