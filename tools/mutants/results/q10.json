{
 "id": "q10",
 "failed": [
  "C112_free_flight_impact_parameters",
  "C93_free_flight_path",
  "C93_loss_limit_partial"
 ],
 "proofs": [
  "C93_free_flight_path"
 ],
 "dropped": [],
 "err": null,
 "unfailed_claims": []
}