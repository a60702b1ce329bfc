{
 "id": "r25",
 "failed": [
  "C121_features_do_not_interfere",
  "C121_plain_build"
 ],
 "proofs": [
  "loop_features_eq"
 ],
 "dropped": [],
 "err": null,
 "unfailed_claims": []
}