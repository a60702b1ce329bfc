{
 "id": "n07",
 "failed": [
  "C49_lookups_in_range_partial",
  "C50_implemented_combinations_partial"
 ],
 "proofs": [
  "check_square_ok"
 ],
 "dropped": [],
 "err": null,
 "unfailed_claims": []
}