{
 "id": "g32",
 "failed": [
  "C106_polygon"
 ],
 "proofs": [
  "C106_polygon"
 ],
 "dropped": [],
 "err": null,
 "unfailed_claims": [],
 "tightened": [
  "C106_polygon"
 ],
 "note": "No claimed theorem failed before C106 was added; it fails now."
}