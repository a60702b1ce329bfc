{
 "id": "r06",
 "failed": [
  "C123_read_as_written",
  "C124_index_one_becomes_zero"
 ],
 "proofs": [
  "material_read",
  "C124_index_one_becomes_zero"
 ],
 "dropped": [],
 "err": null,
 "unfailed_claims": []
}