{
 "id": "q37",
 "failed": [
  "C117_accepted_exactly_when_consistent",
  "C117_same_for_every_stream"
 ],
 "proofs": [
  "free_flight_iff"
 ],
 "dropped": [],
 "err": null,
 "unfailed_claims": []
}