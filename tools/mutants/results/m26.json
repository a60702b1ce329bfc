{
 "id": "m26",
 "failed": [
  "C31_low_energy_stopping_is_proportional_to_ck"
 ],
 "proofs": [
  "C31_low_energy_stopping_is_proportional_to_ck"
 ],
 "dropped": [],
 "err": null,
 "unfailed_claims": []
}