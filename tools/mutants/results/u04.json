{
 "id": "u04",
 "failed": [
  "C94_ion_is_the_same",
  "C94_recoils_off"
 ],
 "proofs": [
  "collision_step_ok",
  "collision_step_inv",
  "step_off",
  "forward_backward_differ",
  "two_sputtered_true",
  "toy_has_recoil"
 ],
 "dropped": [],
 "err": null,
 "unfailed_claims": []
}