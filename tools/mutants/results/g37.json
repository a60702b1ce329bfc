{
 "id": "g37",
 "failed": [
  "C35_closest_point_sphere"
 ],
 "proofs": [
  "C35_closest_point_sphere"
 ],
 "dropped": [],
 "err": null,
 "unfailed_claims": []
}