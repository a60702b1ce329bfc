{
 "id": "g39",
 "failed": [
  "C32_ball_is_nested"
 ],
 "proofs": [
  "C32_ball_is_nested"
 ],
 "dropped": [],
 "err": null,
 "unfailed_claims": []
}