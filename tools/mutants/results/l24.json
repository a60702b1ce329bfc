{
 "id": "l24",
 "failed": [
  "C102_compound_bca_list_1D_py"
 ],
 "proofs": [
  "C102_compound_bca_list_1D_py"
 ],
 "dropped": [],
 "err": null,
 "unfailed_claims": [],
 "tightened": [
  "C102_compound_bca_list_1D_py"
 ],
 "note": "No claimed theorem failed before C102 was added; it fails now."
}