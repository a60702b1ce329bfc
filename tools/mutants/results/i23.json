{
 "id": "i23",
 "failed": [
  "C44_coulomb_turning_point"
 ],
 "proofs": [
  "C44_coulomb_turning_point"
 ],
 "dropped": [],
 "err": null,
 "unfailed_claims": []
}