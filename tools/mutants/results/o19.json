{
 "id": "o19",
 "failed": [
  "C60_histograms_partial",
  "C60_position_below_axis_refuted"
 ],
 "proofs": [
  "add_at_tabulate"
 ],
 "dropped": [],
 "err": null,
 "unfailed_claims": []
}