{
 "id": "l37",
 "failed": [
  "C64_layout_refuted"
 ],
 "proofs": [
  "C64_layout_refuted"
 ],
 "dropped": [],
 "err": null,
 "unfailed_claims": []
}