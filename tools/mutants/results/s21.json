{
 "id": "s21",
 "failed": [
  "C103_refuted_particles_leave_without_paying",
  "C105_helium_on_copper",
  "C107_refuted_an_ion_without_place_and_direction",
  "C115_angle_range",
  "C115_mendenhall_weller_rule",
  "C122_closer_collisions_deflect_more",
  "C122_closer_collisions_transfer_more_energy",
  "C125_classical_angle",
  "C125_faster_projectiles_deflect_less",
  "C125_faster_projectiles_lose_a_smaller_share",
  "C65_same_run_two_schedules_refuted",
  "C67_one_species_runs",
  "C72_nonvacuous",
  "C74_normal_incidence_run_refuted",
  "C97_refuted_recoil_positions"
 ],
 "proofs": [
  "mw_value",
  "forward_backward_differ",
  "two_sputtered_true",
  "normal_run",
  "visitor_run",
  "run64_recoils",
  "C67_one_species_runs",
  "C72_nonvacuous",
  "C74_normal_incidence_run_refuted",
  "upright_run",
  "turned_run"
 ],
 "dropped": [],
 "err": null,
 "unfailed_claims": []
}