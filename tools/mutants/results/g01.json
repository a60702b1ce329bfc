{
 "id": "g01",
 "failed": [
  "C87_same_target_in_other_units"
 ],
 "proofs": [
  "densities_eq"
 ],
 "dropped": [],
 "err": null,
 "unfailed_claims": []
}