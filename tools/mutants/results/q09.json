{
 "id": "q09",
 "failed": [
  "C109_refuted_an_ion_implanted_at_infinity",
  "C109_refuted_random_number_zero",
  "C109_sampling_in_double_precision_partial",
  "C112_collision_geometries_are_distributed_as_stated"
 ],
 "proofs": [
  "determine_value",
  "threshold_free_flight",
  "infinity_run"
 ],
 "dropped": [],
 "err": null,
 "unfailed_claims": []
}