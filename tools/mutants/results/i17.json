{
 "id": "i17",
 "failed": [
  "C101_krc_morse"
 ],
 "proofs": [
  "krc_morse_mix"
 ],
 "dropped": [],
 "err": null,
 "unfailed_claims": [],
 "tightened": [
  "C101_krc_morse"
 ],
 "note": "No claimed theorem failed before C101 was added; it fails now."
}