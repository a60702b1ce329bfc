{
 "id": "r27",
 "failed": [
  "C120_layered_targets",
  "C120_layers_are_thick"
 ],
 "proofs": [
  "layers_good"
 ],
 "dropped": [],
 "err": null,
 "unfailed_claims": []
}