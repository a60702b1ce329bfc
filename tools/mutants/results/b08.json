{
 "id": "b08",
 "failed": [
  "C80_root_finder_option_used_partial"
 ],
 "proofs": [
  "C80_root_finder_option_used_partial"
 ],
 "dropped": [],
 "err": null,
 "unfailed_claims": [],
 "tightened": [
  "C80_root_finder_option_used_partial"
 ]
}