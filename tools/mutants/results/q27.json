{
 "id": "q27",
 "failed": [
  "C108_refraction_angle"
 ],
 "proofs": [
  "C108_refraction_angle"
 ],
 "dropped": [],
 "err": null,
 "unfailed_claims": []
}