{
 "id": "b19",
 "failed": [
  "C24_threshold_with_free_flight_paths_partial"
 ],
 "proofs": [
  "threshold_free_flight"
 ],
 "dropped": [],
 "err": null,
 "unfailed_claims": []
}