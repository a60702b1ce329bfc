{
 "id": "b34",
 "failed": [
  "C92_deep_recoils"
 ],
 "proofs": [
  "C92_deep_recoils"
 ],
 "dropped": [],
 "err": null,
 "unfailed_claims": [],
 "tightened": [
  "C92_deep_recoils"
 ]
}