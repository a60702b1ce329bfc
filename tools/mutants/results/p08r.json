{
 "id": "p08r",
 "failed": [
  "C62_energy_origin_partial",
  "C73_directions_partial",
  "C86_double_precision_partial",
  "C86_from_input_partial"
 ],
 "proofs": [
  "same_direction",
  "C62_energy_origin_partial",
  "C86_from_input_partial",
  "C86_double_precision_partial"
 ],
 "dropped": [],
 "err": null,
 "unfailed_claims": [
  "C08"
 ],
 "tightened": [
  "C86_from_input_partial"
 ],
 "note": "C08 is about particles with positive energy, so the edit does not falsify it; the check is now claimed by C86."
}