{
 "id": "q23",
 "failed": [
  "C107_directions_have_length_one_or_none_partial",
  "C107_refuted_an_ion_without_place_and_direction"
 ],
 "proofs": [
  "rotate_good",
  "normal_run"
 ],
 "dropped": [],
 "err": null,
 "unfailed_claims": []
}