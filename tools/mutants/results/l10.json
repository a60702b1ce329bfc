{
 "id": "l10",
 "failed": [
  "C102_compound_bca_list_c",
  "C102_compound_tagged_bca_list_c",
  "C102_simple_bca_list_c",
  "C74_oblique_velocity_partial"
 ],
 "proofs": [
  "velocity_ion_moving",
  "C74_oblique_velocity_partial"
 ],
 "dropped": [],
 "err": null,
 "unfailed_claims": [],
 "tightened": [
  "C102_compound_bca_list_c",
  "C102_compound_tagged_bca_list_c",
  "C102_simple_bca_list_c"
 ],
 "note": "No claimed theorem failed before C102 was added; it fails now."
}