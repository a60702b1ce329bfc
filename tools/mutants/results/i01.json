{
 "id": "i01",
 "failed": [
  "C47_crossing_point"
 ],
 "proofs": [
  "C47_crossing_point"
 ],
 "dropped": [],
 "err": null,
 "unfailed_claims": []
}