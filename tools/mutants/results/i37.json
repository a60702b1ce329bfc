{
 "id": "i37",
 "failed": [],
 "proofs": [],
 "dropped": [],
 "err": null,
 "unfailed_claims": [
  "C42",
  "C95"
 ],
 "tightened": [
  "C95_scaled_function"
 ],
 "note": "No theorem failed at first: C95 took the zeros the library lists as given. C95_scaled_function now says that the scaled function has the turning points as zeros and no poles; it fails under this edit."
}