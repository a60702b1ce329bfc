{
 "id": "b16",
 "failed": [
  "C08_energies_never_negative",
  "C08_energies_never_negative_in_flight",
  "C09_recoil_energy_between_zero_and_kinematic_maximum",
  "C10_collision_conserves_energy_and_momentum",
  "C10_reported_angles_conserve_momentum",
  "C11_laboratory_angles",
  "C69_collision_energy_bookkeeping"
 ],
 "proofs": [
  "cbc_kinematics"
 ],
 "dropped": [],
 "err": null,
 "unfailed_claims": [
  "C79"
 ],
 "note": "The guess that C79 breaks was wrong: C79 is about the distance of closest approach, which the edit leaves alone."
}