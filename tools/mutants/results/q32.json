{
 "id": "q32",
 "failed": [
  "C108_layer_distance"
 ],
 "proofs": [
  "C108_layer_distance"
 ],
 "dropped": [],
 "err": null,
 "unfailed_claims": []
}