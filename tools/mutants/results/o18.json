{
 "id": "o18",
 "failed": [
  "C60_histograms_partial",
  "C60_never_out_of_bounds",
  "C60_position_below_axis_refuted"
 ],
 "proofs": [
  "update_safe",
  "update_accounts"
 ],
 "dropped": [],
 "err": null,
 "unfailed_claims": []
}