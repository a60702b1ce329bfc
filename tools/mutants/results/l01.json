{
 "id": "l01",
 "failed": [
  "C102_compound_bca_list_c",
  "C102_compound_bca_list_fortran",
  "C102_compound_tagged_bca_list_c",
  "C102_reflect_single_ion_c",
  "C102_simple_bca",
  "C102_simple_bca_list_c",
  "C63_arrays_aligned",
  "C63_nonvacuous",
  "C63_tags_follow_ions",
  "C71_reported_energy_partial"
 ],
 "proofs": [
  "velocity_ion_moving",
  "literal_requested",
  "C63_arrays_aligned",
  "C63_tags_follow_ions",
  "C63_nonvacuous",
  "C71_reported_energy_partial"
 ],
 "dropped": [],
 "err": null,
 "unfailed_claims": []
}