{
 "id": "n16",
 "failed": [
  "C49_lookups_in_range_partial",
  "C50_implemented_combinations_partial",
  "C51_checked_lengths_partial",
  "C52_particles_as_requested",
  "C53_toml_particles_partial",
  "C73_directions_partial"
 ],
 "proofs": [
  "draw_direction_ok",
  "draw_direction_other"
 ],
 "dropped": [],
 "err": null,
 "unfailed_claims": []
}