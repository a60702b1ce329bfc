{
 "id": "q40",
 "failed": [
  "C117_accepted_exactly_when_consistent",
  "C117_same_for_every_stream",
  "C49_lookups_in_range_partial",
  "C50_implemented_combinations_partial",
  "C51_checked_lengths_partial",
  "C51_interaction_indices_refuted",
  "C52_particles_as_requested",
  "C53_toml_particles_partial",
  "C73_directions_partial"
 ],
 "proofs": [
  "input_inv",
  "other_length_unit",
  "input_iff"
 ],
 "dropped": [],
 "err": null,
 "unfailed_claims": []
}