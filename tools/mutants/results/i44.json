{
 "id": "i44",
 "failed": [
  "C88_loss_of_a_step_partial",
  "C95_cpr_root_finder_outermost"
 ],
 "proofs": [
  "length_of_R",
  "C95_cpr_root_finder_outermost"
 ],
 "dropped": [],
 "err": null,
 "unfailed_claims": []
}