{
 "id": "b22",
 "failed": [
  "C93_free_flight_path",
  "C93_loss_limit_partial",
  "C93_refuted_loss_limit"
 ],
 "proofs": [
  "flight_runs",
  "C93_free_flight_path"
 ],
 "dropped": [],
 "err": null,
 "unfailed_claims": [],
 "tightened": [
  "C93_free_flight_path",
  "C93_loss_limit_partial",
  "C93_refuted_loss_limit"
 ]
}