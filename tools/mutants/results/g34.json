{
 "id": "g34",
 "failed": [
  "C87_same_target_in_other_units"
 ],
 "proofs": [
  "C87_same_target_in_other_units"
 ],
 "dropped": [],
 "err": null,
 "unfailed_claims": []
}