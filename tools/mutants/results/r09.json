{
 "id": "r09",
 "failed": [
  "C123_defaults_of_the_library",
  "C123_read_as_written",
  "C123_required_keys"
 ],
 "proofs": [
  "options_read",
  "C123_defaults_of_the_library",
  "C123_required_keys"
 ],
 "dropped": [],
 "err": null,
 "unfailed_claims": []
}