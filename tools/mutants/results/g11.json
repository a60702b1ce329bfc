{
 "id": "g11",
 "failed": [
  "C87_same_target_in_other_units"
 ],
 "proofs": [
  "layers_eq"
 ],
 "dropped": [],
 "err": null,
 "unfailed_claims": []
}