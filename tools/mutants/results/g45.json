{
 "id": "g45",
 "failed": [
  "C108_layer_distance"
 ],
 "proofs": [
  "C108_layer_distance"
 ],
 "dropped": [],
 "err": null,
 "unfailed_claims": [],
 "tightened": [
  "C108_layer_distance"
 ],
 "note": "No claimed theorem failed before C108 was added; it fails now."
}