{
 "id": "o20",
 "failed": [
  "C60_histograms_partial",
  "C60_position_below_axis_refuted"
 ],
 "proofs": [
  "add_loss_accounts"
 ],
 "dropped": [],
 "err": null,
 "unfailed_claims": []
}