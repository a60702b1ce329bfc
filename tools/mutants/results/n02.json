{
 "id": "n02",
 "failed": [
  "C49_lookups_in_range_partial",
  "C50_implemented_combinations_partial",
  "C51_interaction_indices_refuted"
 ],
 "proofs": [
  "max_below_ok",
  "max_below_long"
 ],
 "dropped": [],
 "err": null,
 "unfailed_claims": []
}