{
 "id": "u08",
 "failed": [
  "C105_a_collision_takes_no_more_than_there_is_partial",
  "C105_energies_never_negative_partial",
  "C105_refuted_masses_that_are_almost_the_same",
  "C132_collision",
  "C132_energy_transfer",
  "C132_flight"
 ],
 "proofs": [
  "kin_T",
  "kin_momentum",
  "collision_fair",
  "bcc_inv",
  "forward_backward_differ",
  "two_sputtered_true",
  "twin64_asserts"
 ],
 "dropped": [],
 "err": null,
 "unfailed_claims": []
}