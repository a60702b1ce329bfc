{
 "id": "q03",
 "failed": [
  "C103_a_cascade_is_paid_by_the_ion_partial",
  "C103_one_iteration_partial",
  "C103_sputtered_atoms_are_bounded_partial",
  "C88_loss_of_a_step_partial",
  "C89_stopping_only_slows_partial",
  "C90_energy_of_a_cascade_partial"
 ],
 "proofs": [
  "collision_step_inv"
 ],
 "dropped": [],
 "err": null,
 "unfailed_claims": []
}