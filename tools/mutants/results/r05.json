{
 "id": "r05",
 "failed": [
  "C123_read_as_written"
 ],
 "proofs": [
  "length_unit_read"
 ],
 "dropped": [],
 "err": null,
 "unfailed_claims": []
}