{
 "id": "l32",
 "failed": [
  "C66_frame_rotation",
  "C66_round_trip"
 ],
 "proofs": [
  "rotation_generic"
 ],
 "dropped": [],
 "err": null,
 "unfailed_claims": []
}