{
 "id": "n01",
 "failed": [
  "C61_distributions_build_refuted"
 ],
 "proofs": [
  "C61_distributions_build_refuted"
 ],
 "dropped": [],
 "err": null,
 "unfailed_claims": []
}