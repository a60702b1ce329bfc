{
 "id": "g13",
 "failed": [
  "C106_layers"
 ],
 "proofs": [
  "mesh1d_new_inv"
 ],
 "dropped": [],
 "err": null,
 "unfailed_claims": []
}