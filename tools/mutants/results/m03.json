{
 "id": "m03",
 "failed": [
  "C13_refuted_rotation_onto_the_axis",
  "C25_species_are_drawn_with_their_concentrations",
  "C26_refuted_choose_panics_in_double_precision",
  "C71_stopped_ion_reported_refuted",
  "C75_flight_after_crossing_refuted"
 ],
 "proofs": [
  "one_species_chooses",
  "choose_index_none",
  "choose_index_some",
  "r_chooses",
  "C26_refuted_choose_panics_in_double_precision"
 ],
 "dropped": [],
 "err": null,
 "unfailed_claims": []
}