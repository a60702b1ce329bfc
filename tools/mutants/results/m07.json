{
 "id": "m07",
 "failed": [
  "C27_surface_binding_energy_not_negative",
  "C27_surface_binding_models",
  "C28_average_model_zero_when_all_species_present_partial",
  "C28_refuted_average_model_not_zero"
 ],
 "proofs": [
  "C27_surface_binding_models",
  "C27_surface_binding_energy_not_negative"
 ],
 "dropped": [],
 "err": null,
 "unfailed_claims": []
}