{
 "id": "s20",
 "failed": [
  "C109_refuted_an_ion_implanted_at_infinity",
  "C115_angle_range",
  "C115_mendenhall_weller_rule",
  "C122_closer_collisions_deflect_more",
  "C122_closer_collisions_transfer_more_energy",
  "C125_classical_angle",
  "C125_faster_projectiles_deflect_less",
  "C125_faster_projectiles_lose_a_smaller_share",
  "C65_same_run_two_schedules_refuted",
  "C74_normal_incidence_run_refuted",
  "C79_negative_radicand_panics",
  "C89_refuted_negative_stopping",
  "C90_refuted_energy_is_created",
  "C93_refuted_loss_limit"
 ],
 "proofs": [
  "sf_negative_radicand_panics",
  "mw_value",
  "forward_backward_differ",
  "two_sputtered_true",
  "grazing_run",
  "flight_runs",
  "C74_normal_incidence_run_refuted",
  "infinity_run"
 ],
 "dropped": [],
 "err": null,
 "unfailed_claims": []
}