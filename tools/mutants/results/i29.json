{
 "id": "i29",
 "failed": [
  "C42_four_eight_refuted"
 ],
 "proofs": [
  "C42_four_eight_refuted"
 ],
 "dropped": [],
 "err": null,
 "unfailed_claims": []
}