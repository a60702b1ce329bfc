{
 "id": "i24",
 "failed": [
  "C80_root_finder_option_ignored_refuted"
 ],
 "proofs": [
  "C80_root_finder_option_ignored_refuted"
 ],
 "dropped": [],
 "err": null,
 "unfailed_claims": []
}