{
 "id": "r01",
 "failed": [
  "C123_defaults_of_the_library",
  "C123_read_as_written"
 ],
 "proofs": [
  "options_read",
  "C123_defaults_of_the_library"
 ],
 "dropped": [],
 "err": null,
 "unfailed_claims": []
}