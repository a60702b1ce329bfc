{
 "id": "q01",
 "failed": [
  "C103_a_cascade_is_paid_by_the_ion_partial",
  "C103_one_iteration_partial",
  "C103_refuted_particles_leave_without_paying",
  "C103_sputtered_atoms_are_bounded_partial",
  "C105_a_collision_takes_no_more_than_there_is_partial",
  "C105_energies_never_negative_partial",
  "C105_refuted_masses_that_are_almost_the_same",
  "C89_stopping_only_slows_partial",
  "C90_energy_of_a_cascade_partial"
 ],
 "proofs": [
  "kin_T",
  "kin_momentum",
  "collision_fair",
  "r_collision",
  "forward_backward_differ",
  "two_sputtered_true",
  "visitor_run",
  "twin64_asserts"
 ],
 "dropped": [],
 "err": null,
 "unfailed_claims": []
}