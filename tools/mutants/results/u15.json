{
 "id": "u15",
 "failed": [
  "C110_a_covered_point_has_a_cell_partial"
 ],
 "proofs": [
  "triangle_contains_hull"
 ],
 "dropped": [],
 "err": null,
 "unfailed_claims": []
}