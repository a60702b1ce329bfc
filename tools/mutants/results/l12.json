{
 "id": "l12",
 "failed": [
  "C63_nonvacuous",
  "C63_tags_follow_ions"
 ],
 "proofs": [
  "C63_tags_follow_ions",
  "C63_nonvacuous"
 ],
 "dropped": [],
 "err": null,
 "unfailed_claims": []
}