{
 "id": "q33",
 "failed": [
  "C117_accepted_exactly_when_consistent",
  "C117_same_for_every_stream",
  "C49_lookups_in_range_partial",
  "C50_implemented_combinations_partial",
  "C51_applies",
  "C51_checked_lengths_partial",
  "C51_cutoff_energies_refuted",
  "C51_interaction_indices_refuted",
  "C52_particles_as_requested",
  "C53_toml_particles_partial"
 ],
 "proofs": [
  "input_inv",
  "replace_Ec_accepted",
  "input_iff",
  "C51_applies"
 ],
 "dropped": [],
 "err": null,
 "unfailed_claims": []
}