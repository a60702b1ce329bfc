{
 "id": "o02",
 "failed": [
  "C60_histograms_partial",
  "C60_position_below_axis_refuted"
 ],
 "proofs": [
  "C60_histograms_partial"
 ],
 "dropped": [],
 "err": null,
 "unfailed_claims": []
}