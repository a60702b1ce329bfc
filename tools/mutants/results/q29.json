{
 "id": "q29",
 "failed": [
  "C106_half_space"
 ],
 "proofs": [
  "half_boundary",
  "stays_outside",
  "C106_half_space"
 ],
 "dropped": [],
 "err": null,
 "unfailed_claims": []
}