{
 "id": "l20",
 "failed": [
  "C102_compound_bca_list_fortran"
 ],
 "proofs": [
  "C102_compound_bca_list_fortran"
 ],
 "dropped": [],
 "err": null,
 "unfailed_claims": [],
 "tightened": [
  "C102_compound_bca_list_fortran"
 ],
 "note": "No claimed theorem failed before C102 was added; it fails now."
}