{
 "id": "u13",
 "failed": [
  "C130_axes_from_zero_partial",
  "C130_order_is_kept",
  "C60_histograms_partial",
  "C60_position_below_axis_refuted"
 ],
 "proofs": [
  "bin_floor_R",
  "floor_bins",
  "floor_from_zero"
 ],
 "dropped": [],
 "err": null,
 "unfailed_claims": []
}