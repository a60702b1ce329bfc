{
 "id": "r07",
 "failed": [
  "C123_read_as_written"
 ],
 "proofs": [
  "material_read"
 ],
 "dropped": [],
 "err": null,
 "unfailed_claims": []
}