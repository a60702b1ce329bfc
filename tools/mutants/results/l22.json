{
 "id": "l22",
 "failed": [
  "C72_layered_python_lists",
  "C72_python_lists"
 ],
 "proofs": [
  "py_collect_spec"
 ],
 "dropped": [],
 "err": null,
 "unfailed_claims": []
}