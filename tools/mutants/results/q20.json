{
 "id": "q20",
 "failed": [
  "C116_angle_range",
  "C116_magic_formula"
 ],
 "proofs": [
  "magic_table_ok"
 ],
 "dropped": [],
 "err": null,
 "unfailed_claims": []
}