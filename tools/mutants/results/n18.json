{
 "id": "n18",
 "failed": [
  "C49_lookups_in_range_partial",
  "C50_implemented_combinations_partial",
  "C51_checked_lengths_partial",
  "C52_particles_as_requested",
  "C53_toml_particles_partial"
 ],
 "proofs": [
  "make_particle_ok"
 ],
 "dropped": [],
 "err": null,
 "unfailed_claims": []
}