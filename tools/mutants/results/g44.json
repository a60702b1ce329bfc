{
 "id": "g44",
 "failed": [
  "C87_same_target_in_other_units"
 ],
 "proofs": [
  "length_unit_spec"
 ],
 "dropped": [],
 "err": null,
 "unfailed_claims": []
}