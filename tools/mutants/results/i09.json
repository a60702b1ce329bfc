{
 "id": "i09",
 "failed": [
  "C99_exchange",
  "C99_screening_lengths"
 ],
 "proofs": [
  "C99_exchange",
  "C99_screening_lengths"
 ],
 "dropped": [],
 "err": null,
 "unfailed_claims": [],
 "tightened": [
  "C99_exchange",
  "C99_screening_lengths"
 ],
 "note": "No claimed theorem failed before C99 was added; it fails now."
}