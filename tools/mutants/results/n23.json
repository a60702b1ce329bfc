{
 "id": "n23",
 "failed": [
  "C49_lookups_in_range_partial",
  "C50_implemented_combinations_partial",
  "C51_checked_lengths_partial",
  "C52_particles_as_requested",
  "C53_toml_particles_partial",
  "C73_directions_partial"
 ],
 "proofs": [
  "make_entries_ok",
  "make_entries_other"
 ],
 "dropped": [],
 "err": null,
 "unfailed_claims": []
}