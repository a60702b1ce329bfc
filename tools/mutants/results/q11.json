{
 "id": "q11",
 "failed": [
  "C112_collision_geometries_are_distributed_as_stated",
  "C89_refuted_negative_stopping",
  "C90_refuted_energy_is_created"
 ],
 "proofs": [
  "determine_value",
  "forward_backward_differ",
  "two_sputtered_true",
  "grazing_run"
 ],
 "dropped": [],
 "err": null,
 "unfailed_claims": []
}