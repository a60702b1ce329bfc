{
 "id": "q04",
 "failed": [
  "C105_energies_never_negative_partial"
 ],
 "proofs": [
  "subtract_frame",
  "subtract_nn"
 ],
 "dropped": [],
 "err": null,
 "unfailed_claims": []
}