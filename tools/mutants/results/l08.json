{
 "id": "l08",
 "failed": [
  "C72_layered_python_lists",
  "C72_python_lists"
 ],
 "proofs": [
  "C72_python_lists",
  "C72_layered_python_lists"
 ],
 "dropped": [],
 "err": null,
 "unfailed_claims": []
}