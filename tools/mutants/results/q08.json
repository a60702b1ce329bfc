{
 "id": "q08",
 "failed": [
  "C112_collision_geometries_are_distributed_as_stated"
 ],
 "proofs": [
  "determine_value",
  "determine_free_flight",
  "forward_backward_differ",
  "two_sputtered_true"
 ],
 "dropped": [],
 "err": null,
 "unfailed_claims": []
}