{
 "id": "b24",
 "failed": [
  "C93_free_flight_path",
  "C93_loss_limit_partial",
  "C93_refuted_loss_limit"
 ],
 "proofs": [
  "determine_free_flight",
  "threshold_free_flight",
  "flight_runs",
  "C93_free_flight_path"
 ],
 "dropped": [],
 "err": null,
 "unfailed_claims": [],
 "tightened": [
  "C93_free_flight_path",
  "C93_loss_limit_partial",
  "C93_refuted_loss_limit"
 ]
}