{
 "id": "u14",
 "failed": [
  "C127_applies",
  "C128_enough_bins_partial",
  "C130_axes_from_zero_partial",
  "C130_deposited",
  "C130_edge_refuted",
  "C130_nan_refuted",
  "C130_order_applies",
  "C130_order_is_kept",
  "C60_histograms_partial",
  "C60_never_out_of_bounds",
  "C60_position_below_axis_refuted"
 ],
 "proofs": [
  "in_bins_lt",
  "in_bins_clamp",
  "bin_floor_R",
  "bin_cast_R",
  "C127_applies",
  "count_new",
  "C130_axes_from_zero_partial",
  "C130_edge_refuted",
  "C130_order_applies",
  "C130_deposited"
 ],
 "dropped": [],
 "err": null,
 "unfailed_claims": []
}