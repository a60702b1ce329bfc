{
 "id": "m12",
 "failed": [
  "C31_interpolation_below_both_limits_partial",
  "C31_refuted_interpolated_stopping_decreases_with_ck"
 ],
 "proofs": [
  "stopping_power_interpolated"
 ],
 "dropped": [],
 "err": null,
 "unfailed_claims": []
}