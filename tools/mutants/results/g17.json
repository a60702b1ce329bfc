{
 "id": "g17",
 "failed": [
  "C106_layers"
 ],
 "proofs": [
  "C106_layers"
 ],
 "dropped": [],
 "err": null,
 "unfailed_claims": [],
 "tightened": [
  "C106_layers"
 ],
 "note": "No claimed theorem failed before C106 was added; it fails now."
}