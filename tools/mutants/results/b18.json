{
 "id": "b18",
 "failed": [
  "C23_collision_geometries_stay_in_their_annuli",
  "C24_refuted_threshold_ignored_without_free_flight_paths",
  "C24_threshold_with_free_flight_paths_partial"
 ],
 "proofs": [
  "determine_value",
  "threshold_free_flight"
 ],
 "dropped": [],
 "err": null,
 "unfailed_claims": []
}