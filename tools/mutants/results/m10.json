{
 "id": "m10",
 "failed": [
  "C30_minimum_cutoff_energy_is_the_minimum"
 ],
 "proofs": [
  "minimum_cutoff"
 ],
 "dropped": [],
 "err": null,
 "unfailed_claims": []
}