{
 "id": "g31",
 "failed": [
  "C106_polygon"
 ],
 "proofs": [
  "C106_polygon"
 ],
 "dropped": [],
 "err": null,
 "unfailed_claims": []
}