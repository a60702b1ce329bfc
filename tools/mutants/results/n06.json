{
 "id": "n06",
 "failed": [
  "C117_accepted_exactly_when_consistent",
  "C117_same_for_every_stream"
 ],
 "proofs": [
  "gaseous_iff"
 ],
 "dropped": [],
 "err": null,
 "unfailed_claims": [],
 "tightened": [
  "C117_accepted_exactly_when_consistent"
 ],
 "note": "Survived at first (no theorem said which files are accepted); C117 was added and fails for it."
}