{
 "id": "l35",
 "failed": [
  "C66_frame_rotation",
  "C66_round_trip"
 ],
 "proofs": [
  "back_generic",
  "frame_back",
  "back_frame",
  "back_dot"
 ],
 "dropped": [],
 "err": null,
 "unfailed_claims": []
}