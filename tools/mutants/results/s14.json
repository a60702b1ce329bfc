{
 "id": "s14",
 "failed": [
  "C126_target_asked_for"
 ],
 "proofs": [
  "C126_target_asked_for"
 ],
 "dropped": [],
 "err": null,
 "unfailed_claims": []
}