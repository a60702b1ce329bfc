{
 "id": "m11",
 "failed": [
  "C22_applies",
  "C31_low_energy_stopping_is_proportional_to_ck"
 ],
 "proofs": [
  "stopping_power_low",
  "C22_applies"
 ],
 "dropped": [],
 "err": null,
 "unfailed_claims": []
}