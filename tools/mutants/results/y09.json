{
 "id": "y09",
 "failed": [
  "C68_command_line"
 ],
 "proofs": [
  "C68_command_line"
 ],
 "dropped": [],
 "err": null,
 "unfailed_claims": []
}