{
 "id": "g06",
 "failed": [
  "C32_half_space_is_nested"
 ],
 "proofs": [
  "C32_half_space_is_nested"
 ],
 "dropped": [],
 "err": null,
 "unfailed_claims": []
}