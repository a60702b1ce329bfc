{
 "id": "m24r",
 "failed": [
  "C51_cutoff_energies_refuted",
  "C63_nonvacuous",
  "C67_other_species_refuted",
  "C71_stopped_ion_reported_refuted",
  "C87_material_in_SI"
 ],
 "proofs": [
  "replace_Ec_accepted",
  "one_species_target",
  "two_sputtered_true",
  "C63_nonvacuous",
  "C67_other_species_refuted",
  "C87_material_in_SI"
 ],
 "dropped": [],
 "err": null,
 "unfailed_claims": [],
 "tightened": [
  "C87_material_in_SI"
 ]
}