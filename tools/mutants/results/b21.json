{
 "id": "b21",
 "failed": [
  "C23_collision_geometries_stay_in_their_annuli",
  "C24_refuted_threshold_ignored_without_free_flight_paths"
 ],
 "proofs": [
  "determine_value",
  "determine_free_flight"
 ],
 "dropped": [],
 "err": null,
 "unfailed_claims": []
}