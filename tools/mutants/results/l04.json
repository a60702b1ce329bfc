{
 "id": "l04",
 "failed": [
  "C63_arrays_aligned",
  "C63_nonvacuous",
  "C63_tags_follow_ions",
  "C72_layered_python_lists",
  "C72_nonvacuous",
  "C72_python_lists",
  "C84_compound_bca_list_1D_py",
  "C84_compound_bca_list_py",
  "C84_compound_tagged_bca_list_c"
 ],
 "proofs": [
  "tagged_collect_spec",
  "py_collect_spec",
  "C63_nonvacuous",
  "C72_nonvacuous"
 ],
 "dropped": [],
 "err": null,
 "unfailed_claims": []
}