{
 "id": "i19",
 "failed": [
  "C101_tungsten"
 ],
 "proofs": [
  "ww_R"
 ],
 "dropped": [],
 "err": null,
 "unfailed_claims": [],
 "tightened": [
  "C101_tungsten"
 ],
 "note": "No claimed theorem failed before C101 was added; it fails now."
}