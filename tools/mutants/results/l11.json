{
 "id": "l11",
 "failed": [
  "C102_compound_bca_list_c",
  "C102_compound_tagged_bca_list_c",
  "C102_simple_bca_list_c",
  "C63_nonvacuous",
  "C74_normal_incidence_run_refuted",
  "C74_oblique_velocity_partial"
 ],
 "proofs": [
  "velocity_ion_moving",
  "C63_nonvacuous",
  "C74_normal_incidence_run_refuted",
  "C74_oblique_velocity_partial"
 ],
 "dropped": [],
 "err": null,
 "unfailed_claims": [],
 "tightened": [
  "C102_compound_bca_list_c",
  "C102_compound_tagged_bca_list_c",
  "C102_simple_bca_list_c"
 ],
 "note": "No claimed theorem failed before C102 was added; it fails now."
}