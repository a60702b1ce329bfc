{
 "id": "q07",
 "failed": [
  "C112_collision_geometries_are_distributed_as_stated"
 ],
 "proofs": [
  "determine_value",
  "forward_backward_differ",
  "two_sputtered_true",
  "r_step"
 ],
 "dropped": [],
 "err": null,
 "unfailed_claims": []
}