{
 "id": "q30",
 "failed": [
  "C104_half_spaces",
  "C26_choosing_fails_only_next_to_one_partial",
  "C26_one_species_is_always_chosen_partial",
  "C26_refuted_choose_panics_in_double_precision",
  "C39_concentrations_are_a_probability_vector",
  "C67_run_panics_refuted",
  "C71_stopped_ion_reported_refuted"
 ],
 "proofs": [
  "concentrations_R",
  "one_species_chooses",
  "r_mesh_constructed",
  "half_space_shape",
  "two_sputtered_true",
  "C26_one_species_is_always_chosen_partial",
  "C26_choosing_fails_only_next_to_one_partial",
  "C67_run_panics_refuted",
  "C26_refuted_choose_panics_in_double_precision"
 ],
 "dropped": [],
 "err": null,
 "unfailed_claims": []
}