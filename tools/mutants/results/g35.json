{
 "id": "g35",
 "failed": [
  "C106_sphere",
  "C35_closest_point_sphere"
 ],
 "proofs": [
  "sphere_r_R",
  "C106_sphere"
 ],
 "dropped": [],
 "err": null,
 "unfailed_claims": []
}