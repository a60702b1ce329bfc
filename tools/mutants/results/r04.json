{
 "id": "r04",
 "failed": [
  "C123_read_as_written",
  "C124_index_one_becomes_zero"
 ],
 "proofs": [
  "rt_dist",
  "C124_index_one_becomes_zero"
 ],
 "dropped": [],
 "err": null,
 "unfailed_claims": []
}