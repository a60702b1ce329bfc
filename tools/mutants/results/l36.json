{
 "id": "l36",
 "failed": [
  "C66_frame_rotation",
  "C66_round_trip"
 ],
 "proofs": [
  "rotate_value"
 ],
 "dropped": [],
 "err": null,
 "unfailed_claims": []
}