{
 "id": "g22",
 "failed": [
  "C37_triangle_distance_is_the_distance_to_its_outline"
 ],
 "proofs": [
  "segment_distance_spec"
 ],
 "dropped": [],
 "err": null,
 "unfailed_claims": []
}