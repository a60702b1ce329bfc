{
 "id": "q05",
 "failed": [
  "C105_energies_never_negative_partial",
  "C105_refuted_masses_that_are_almost_the_same"
 ],
 "proofs": [
  "subtract_nn",
  "twin64_asserts"
 ],
 "dropped": [],
 "err": null,
 "unfailed_claims": []
}