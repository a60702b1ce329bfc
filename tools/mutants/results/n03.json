{
 "id": "n03",
 "failed": [
  "C51_checked_lengths_partial",
  "C51_interaction_indices_refuted",
  "C52_particles_as_requested",
  "C53_toml_particles_partial"
 ],
 "proofs": [
  "max_below_long",
  "replace_index_accepted",
  "accepted_lengths",
  "C52_particles_as_requested"
 ],
 "dropped": [],
 "err": null,
 "unfailed_claims": []
}