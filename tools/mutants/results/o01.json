{
 "id": "o01",
 "failed": [
  "C60_histograms_partial",
  "C60_position_below_axis_refuted"
 ],
 "proofs": [
  "angle_polar"
 ],
 "dropped": [],
 "err": null,
 "unfailed_claims": []
}