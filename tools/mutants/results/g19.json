{
 "id": "g19",
 "failed": [
  "C37_triangle_distance_is_the_distance_to_its_outline",
  "C37_triangle_distance_panics_exactly_on_zero_length_sides"
 ],
 "proofs": [
  "triangle_distance_spec",
  "triangle_distance_panic"
 ],
 "dropped": [],
 "err": null,
 "unfailed_claims": []
}