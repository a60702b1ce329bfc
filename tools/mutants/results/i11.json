{
 "id": "i11",
 "failed": [
  "C101_krc_morse",
  "C101_tungsten",
  "C42_potential_exists",
  "C42_roots_are_turning_points_partial",
  "C45_newton_converges",
  "C46_head_on_high_energy_partial",
  "C77_gauss_mehler_angle",
  "C79_reported_point_usable_partial",
  "C79_reported_point_usable_refuted",
  "C99_lenz_jensen_partial",
  "C99_lenz_jensen_refuted",
  "C99_screened_potentials"
 ],
 "proofs": [
  "screened_potential_R",
  "krc_morse_mix"
 ],
 "dropped": [],
 "err": null,
 "unfailed_claims": []
}