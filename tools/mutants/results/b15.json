{
 "id": "b15",
 "failed": [
  "C08_energies_never_negative",
  "C08_energies_never_negative_in_flight",
  "C09_recoil_energy_between_zero_and_kinematic_maximum",
  "C10_collision_conserves_energy_and_momentum",
  "C10_reported_angles_conserve_momentum",
  "C69_collision_energy_bookkeeping"
 ],
 "proofs": [
  "kin_T",
  "kin_momentum",
  "r_collision"
 ],
 "dropped": [],
 "err": null,
 "unfailed_claims": []
}