{
 "id": "r13",
 "failed": [
  "C124_indices_used_partial",
  "C124_single_index_refuted",
  "C51_checked_lengths_partial",
  "C51_interaction_indices_refuted",
  "C52_particles_as_requested",
  "C53_toml_particles_partial"
 ],
 "proofs": [
  "max_below_long",
  "replace_index_accepted",
  "accepted_lengths",
  "expand_short",
  "C52_particles_as_requested",
  "C124_indices_used_partial",
  "C124_single_index_refuted"
 ],
 "dropped": [],
 "err": null,
 "unfailed_claims": []
}