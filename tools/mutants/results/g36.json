{
 "id": "g36",
 "failed": [
  "C32_sphere_is_nested"
 ],
 "proofs": [
  "C32_sphere_is_nested"
 ],
 "dropped": [],
 "err": null,
 "unfailed_claims": []
}