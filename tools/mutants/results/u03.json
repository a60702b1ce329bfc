{
 "id": "u03",
 "failed": [
  "C85_stopping_formulas"
 ],
 "proofs": [
  "stopping_power_interpolated"
 ],
 "dropped": [],
 "err": null,
 "unfailed_claims": []
}