{
 "id": "m26r",
 "failed": [
  "C31_low_energy_stopping_is_proportional_to_ck",
  "C82_moving_the_ion_along_a_flat_surface",
  "C82_moving_the_ion_along_the_axis_of_a_2d_mesh",
  "C83_stopping_is_taken_at_the_particle",
  "C85_stopping_formulas"
 ],
 "proofs": [
  "sh_stopping",
  "C31_low_energy_stopping_is_proportional_to_ck",
  "C83_stopping_is_taken_at_the_particle"
 ],
 "dropped": [],
 "err": null,
 "unfailed_claims": []
}