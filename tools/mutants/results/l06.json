{
 "id": "l06",
 "failed": [
  "C102_compound_bca_list_c",
  "C102_simple_bca",
  "C102_simple_bca_list_c"
 ],
 "proofs": [
  "row9_nine",
  "C102_compound_bca_list_c",
  "C102_simple_bca_list_c",
  "C102_simple_bca"
 ],
 "dropped": [],
 "err": null,
 "unfailed_claims": [],
 "tightened": [
  "C102_compound_bca_list_c",
  "C102_simple_bca",
  "C102_simple_bca_list_c"
 ],
 "note": "No claimed theorem failed before C102 was added; it fails now."
}