{
 "id": "g18",
 "failed": [
  "C35_closest_point_layers"
 ],
 "proofs": [
  "C35_closest_point_layers"
 ],
 "dropped": [],
 "err": null,
 "unfailed_claims": []
}