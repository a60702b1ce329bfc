{
 "id": "r23",
 "failed": [
  "C121_features_do_not_interfere",
  "C121_plain_build"
 ],
 "proofs": [
  "C121_features_do_not_interfere"
 ],
 "dropped": [],
 "err": null,
 "unfailed_claims": []
}