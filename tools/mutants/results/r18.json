{
 "id": "r18",
 "failed": [
  "C115_angle_range",
  "C115_mendenhall_weller_rule",
  "C122_closer_collisions_deflect_more",
  "C122_closer_collisions_transfer_more_energy"
 ],
 "proofs": [
  "mw_value"
 ],
 "dropped": [],
 "err": null,
 "unfailed_claims": [
  "C96"
 ]
}