{
 "id": "p02",
 "failed": [
  "C10_collision_conserves_energy_and_momentum",
  "C10_reported_angles_conserve_momentum",
  "C12_rotate_turns_by_psi",
  "C13_generic_deflections_stay_off_axis_partial",
  "C13_refuted_rotation_onto_the_axis",
  "C65_same_run_two_schedules_refuted",
  "C69_collision_energy_bookkeeping",
  "C74_normal_direction_becomes_nan_refuted"
 ],
 "proofs": [
  "rotate_dir_raw",
  "forward_backward_differ",
  "C74_normal_direction_becomes_nan_refuted"
 ],
 "dropped": [],
 "err": null,
 "unfailed_claims": []
}