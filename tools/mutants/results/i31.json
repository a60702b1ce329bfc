{
 "id": "i31",
 "failed": [
  "C42_roots_are_turning_points_partial"
 ],
 "proofs": [
  "doca_factor"
 ],
 "dropped": [],
 "err": null,
 "unfailed_claims": []
}