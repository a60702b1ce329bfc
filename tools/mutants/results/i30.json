{
 "id": "i30",
 "failed": [
  "C41_morse_refuted",
  "C42_roots_are_turning_points_partial"
 ],
 "proofs": [
  "doca_factor",
  "morse_deriv"
 ],
 "dropped": [],
 "err": null,
 "unfailed_claims": []
}