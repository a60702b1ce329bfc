{
 "id": "g23",
 "failed": [
  "C37_triangle_distance_is_the_distance_to_its_outline"
 ],
 "proofs": [
  "triangle_distance_spec"
 ],
 "dropped": [],
 "err": null,
 "unfailed_claims": []
}