{
 "id": "q22",
 "failed": [
  "C10_collision_conserves_energy_and_momentum",
  "C10_reported_angles_conserve_momentum",
  "C12_rotate_turns_by_psi",
  "C13_generic_deflections_stay_off_axis_partial",
  "C13_refuted_rotation_onto_the_axis",
  "C69_collision_energy_bookkeeping",
  "C74_normal_direction_becomes_nan_refuted",
  "C91_collision_pushes_partial",
  "C91_refuted_attraction",
  "C91_refuted_slanted_flight",
  "C97_half_turn_partial",
  "C97_turning_the_ion_partial",
  "C98_mirror_images"
 ],
 "proofs": [
  "rotate_dir_raw",
  "td_rotate",
  "C74_normal_direction_becomes_nan_refuted"
 ],
 "dropped": [],
 "err": null,
 "unfailed_claims": []
}