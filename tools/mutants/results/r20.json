{
 "id": "r20",
 "failed": [
  "C122_closer_collisions_transfer_more_energy"
 ],
 "proofs": [
  "kin_psir",
  "kin_momentum"
 ],
 "dropped": [],
 "err": null,
 "unfailed_claims": []
}