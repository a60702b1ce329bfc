{
 "id": "g43",
 "failed": [
  "C106_half_space"
 ],
 "proofs": [
  "half_boundary",
  "stays_outside",
  "C106_half_space"
 ],
 "dropped": [],
 "err": null,
 "unfailed_claims": [],
 "tightened": [
  "C106_half_space"
 ],
 "note": "No claimed theorem failed before C106 was added; it fails now."
}