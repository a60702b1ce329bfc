{
 "id": "o17",
 "failed": [
  "C60_histograms_partial",
  "C60_never_out_of_bounds",
  "C60_position_below_axis_refuted"
 ],
 "proofs": [
  "in_bins_lt",
  "in_bins_clamp",
  "bin_floor_R",
  "bin_cast_R"
 ],
 "dropped": [],
 "err": null,
 "unfailed_claims": []
}