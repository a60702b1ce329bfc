{
 "id": "r22",
 "failed": [
  "C121_features_do_not_interfere",
  "C121_plain_build"
 ],
 "proofs": [
  "finished_eq"
 ],
 "dropped": [],
 "err": null,
 "unfailed_claims": []
}