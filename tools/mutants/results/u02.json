{
 "id": "u02",
 "failed": [
  "C85_stopping_formulas"
 ],
 "proofs": [
  "low_spec"
 ],
 "dropped": [],
 "err": null,
 "unfailed_claims": []
}