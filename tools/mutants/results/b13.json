{
 "id": "b13",
 "failed": [
  "C10_collision_conserves_energy_and_momentum",
  "C10_reported_angles_conserve_momentum",
  "C11_laboratory_angles",
  "C69_collision_energy_bookkeeping"
 ],
 "proofs": [
  "kin_psi",
  "kin_momentum"
 ],
 "dropped": [],
 "err": null,
 "unfailed_claims": []
}