{
 "id": "l38",
 "failed": [
  "C102_reflect_single_ion_py"
 ],
 "proofs": [
  "C102_reflect_single_ion_py"
 ],
 "dropped": [],
 "err": null,
 "unfailed_claims": []
}