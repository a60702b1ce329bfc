{
 "id": "r11",
 "failed": [
  "C123_read_as_written"
 ],
 "proofs": [
  "mesh2d_read"
 ],
 "dropped": [],
 "err": null,
 "unfailed_claims": []
}