{
 "id": "i34",
 "failed": [
  "C41_lennard_jones_derivative_partial",
  "C41_newton_variable_lennard_jones_refuted",
  "C78_newton_lennard_jones_refuted"
 ],
 "proofs": [
  "lj_deriv",
  "lj_at_half"
 ],
 "dropped": [],
 "err": null,
 "unfailed_claims": []
}