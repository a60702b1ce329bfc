{
 "id": "q24",
 "failed": [
  "C108_momentum",
  "C108_momentum_applies"
 ],
 "proofs": [
  "C108_momentum",
  "C108_momentum_applies"
 ],
 "dropped": [],
 "err": null,
 "unfailed_claims": []
}