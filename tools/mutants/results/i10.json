{
 "id": "i10",
 "failed": [
  "C99_screening_lengths"
 ],
 "proofs": [
  "screening_length_pos",
  "screening_length_lj_bound",
  "C99_screening_lengths"
 ],
 "dropped": [],
 "err": null,
 "unfailed_claims": [],
 "tightened": [
  "C99_screening_lengths"
 ],
 "note": "No claimed theorem failed before C99 was added; it fails now."
}