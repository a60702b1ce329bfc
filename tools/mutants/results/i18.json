{
 "id": "i18",
 "failed": [
  "C101_tungsten"
 ],
 "proofs": [
  "ramp3_term"
 ],
 "dropped": [],
 "err": null,
 "unfailed_claims": [],
 "tightened": [
  "C101_tungsten"
 ],
 "note": "No claimed theorem failed before C101 was added; it fails now."
}