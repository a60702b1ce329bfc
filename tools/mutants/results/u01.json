{
 "id": "u01",
 "failed": [
  "C82_moving_the_ion_along_a_flat_surface",
  "C82_moving_the_ion_along_the_axis_of_a_2d_mesh",
  "C83_stopping_is_taken_at_the_particle",
  "C85_stopping_formulas"
 ],
 "proofs": [
  "sh_stopping",
  "C83_stopping_is_taken_at_the_particle"
 ],
 "dropped": [],
 "err": null,
 "unfailed_claims": []
}