{
 "id": "l34",
 "failed": [
  "C66_frame_rotation",
  "C66_round_trip"
 ],
 "proofs": [
  "rotation_opposite"
 ],
 "dropped": [],
 "err": null,
 "unfailed_claims": []
}