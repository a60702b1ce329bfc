{
 "id": "r10",
 "failed": [
  "C123_read_as_written",
  "C123_required_keys"
 ],
 "proofs": [
  "particles_read",
  "particles_missing"
 ],
 "dropped": [],
 "err": null,
 "unfailed_claims": []
}