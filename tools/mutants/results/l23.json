{
 "id": "l23",
 "failed": [
  "C72_python_lists"
 ],
 "proofs": [
  "C72_python_lists"
 ],
 "dropped": [],
 "err": null,
 "unfailed_claims": []
}