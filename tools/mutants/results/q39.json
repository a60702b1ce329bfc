{
 "id": "q39",
 "failed": [
  "C117_accepted_exactly_when_consistent",
  "C117_same_for_every_stream",
  "C49_lookups_in_range_partial",
  "C50_implemented_combinations_partial"
 ],
 "proofs": [
  "check_square_ok",
  "square_iff"
 ],
 "dropped": [],
 "err": null,
 "unfailed_claims": []
}