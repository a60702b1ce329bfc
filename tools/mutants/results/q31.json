{
 "id": "q31",
 "failed": [
  "C111_every_double_has_its_layer"
 ],
 "proofs": [
  "chain64_tiles",
  "C111_every_double_has_its_layer"
 ],
 "dropped": [],
 "err": null,
 "unfailed_claims": []
}