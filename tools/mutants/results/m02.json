{
 "id": "m02",
 "failed": [
  "C04_applies",
  "C13_refuted_rotation_onto_the_axis",
  "C25_species_are_drawn_with_their_concentrations",
  "C54_applies",
  "C55_applies",
  "C55_number_of_chunks_refuted",
  "C56_applies",
  "C57_applies",
  "C58_applies",
  "C59_applies",
  "C59_energy_losses_refuted",
  "C63_nonvacuous",
  "C65_same_run_two_schedules_refuted",
  "C67_one_species_runs",
  "C67_run_panics_refuted",
  "C71_stopped_ion_reported_refuted",
  "C72_nonvacuous",
  "C74_normal_incidence_run_refuted",
  "C75_flight_after_crossing_refuted"
 ],
 "proofs": [
  "one_species_chooses",
  "cumulative_nth",
  "r_chooses",
  "forward_backward_differ",
  "two_sputtered_true",
  "C63_nonvacuous",
  "C67_run_panics_refuted",
  "C67_one_species_runs",
  "C72_nonvacuous",
  "C74_normal_incidence_run_refuted",
  "C54_applies",
  "C55_number_of_chunks_refuted",
  "C55_applies",
  "C56_applies",
  "C57_applies",
  "C58_applies",
  "C59_energy_losses_refuted",
  "C59_applies",
  "toy_runs",
  "toy_is_not_trivial",
  "C04_applies"
 ],
 "dropped": [],
 "err": null,
 "unfailed_claims": []
}