{
 "id": "i03",
 "failed": [
  "C101_krc_morse"
 ],
 "proofs": [
  "sigmoid_R"
 ],
 "dropped": [],
 "err": null,
 "unfailed_claims": [],
 "tightened": [
  "C101_krc_morse"
 ],
 "note": "No claimed theorem failed before C101 was added; it fails now."
}