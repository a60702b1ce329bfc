{
 "id": "g41",
 "failed": [
  "C106_triangulated_body"
 ],
 "proofs": [
  "C106_triangulated_body"
 ],
 "dropped": [],
 "err": null,
 "unfailed_claims": [],
 "tightened": [
  "C106_triangulated_body"
 ],
 "note": "No claimed theorem failed before C106 was added; it fails now."
}