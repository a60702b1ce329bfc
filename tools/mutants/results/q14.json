{
 "id": "q14",
 "failed": [
  "C115_angle_range",
  "C115_mendenhall_weller_rule"
 ],
 "proofs": [
  "mw_value"
 ],
 "dropped": [],
 "err": null,
 "unfailed_claims": []
}