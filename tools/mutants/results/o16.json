{
 "id": "o16",
 "failed": [
  "C60_histograms_partial",
  "C60_position_below_axis_refuted"
 ],
 "proofs": [
  "bin_floor_R"
 ],
 "dropped": [],
 "err": null,
 "unfailed_claims": []
}