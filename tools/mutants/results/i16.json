{
 "id": "i16",
 "failed": [
  "C100_wells",
  "C42_roots_are_turning_points_partial",
  "C47_crossing_point"
 ],
 "proofs": [
  "doca_factor",
  "morse_sign",
  "morse_well"
 ],
 "dropped": [],
 "err": null,
 "unfailed_claims": [],
 "tightened": [
  "C100_wells"
 ],
 "note": "No claimed theorem failed before C100 was added; it fails now."
}