{
 "id": "l30",
 "failed": [
  "C102_reflect_single_ion_py",
  "C72_reflected_velocity"
 ],
 "proofs": [
  "C72_reflected_velocity",
  "C102_reflect_single_ion_py"
 ],
 "dropped": [],
 "err": null,
 "unfailed_claims": []
}