{
 "id": "i43",
 "failed": [
  "C88_loss_of_a_step_partial"
 ],
 "proofs": [
  "exponent_of_R"
 ],
 "dropped": [],
 "err": null,
 "unfailed_claims": []
}