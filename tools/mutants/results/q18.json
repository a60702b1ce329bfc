{
 "id": "q18",
 "failed": [
  "C116_angle_range",
  "C116_magic_formula"
 ],
 "proofs": [
  "magic_value",
  "C116_magic_formula",
  "C116_angle_range"
 ],
 "dropped": [],
 "err": null,
 "unfailed_claims": []
}