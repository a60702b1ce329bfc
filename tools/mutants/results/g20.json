{
 "id": "g20",
 "failed": [
  "C36_triangle_containment_is_containment"
 ],
 "proofs": [
  "triangle_contains_hull"
 ],
 "dropped": [],
 "err": null,
 "unfailed_claims": []
}