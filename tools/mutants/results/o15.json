{
 "id": "o15",
 "failed": [
  "C60_histograms_partial",
  "C60_position_below_axis_refuted"
 ],
 "proofs": [
  "axis_R"
 ],
 "dropped": [],
 "err": null,
 "unfailed_claims": []
}