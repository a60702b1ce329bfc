{
 "id": "n04",
 "failed": [
  "C51_checked_lengths_partial"
 ],
 "proofs": [
  "accepted_lengths"
 ],
 "dropped": [],
 "err": null,
 "unfailed_claims": []
}