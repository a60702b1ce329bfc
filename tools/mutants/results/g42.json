{
 "id": "g42",
 "failed": [
  "C32_inside_2D_is_inside_barrier"
 ],
 "proofs": [
  "C32_inside_2D_is_inside_barrier"
 ],
 "dropped": [],
 "err": null,
 "unfailed_claims": []
}