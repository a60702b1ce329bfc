{
 "id": "p08",
 "failed": [
  "C62_energy_origin_partial",
  "C73_directions_partial"
 ],
 "proofs": [
  "same_direction",
  "C62_energy_origin_partial"
 ],
 "dropped": [],
 "err": null,
 "unfailed_claims": [
  "C08"
 ],
 "tightened": [
  "C86_from_input_partial",
  "C86_double_precision_partial"
 ],
 "note": "The energy check itself was not claimed by any theorem at that time; C86 was added and fails under this edit (see p08r)."
}