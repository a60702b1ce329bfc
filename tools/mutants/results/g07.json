{
 "id": "g07",
 "failed": [
  "C35_closest_point_half_space"
 ],
 "proofs": [
  "C35_closest_point_half_space"
 ],
 "dropped": [],
 "err": null,
 "unfailed_claims": []
}