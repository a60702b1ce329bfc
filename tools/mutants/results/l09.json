{
 "id": "l09",
 "failed": [
  "C84_compound_bca_list_c",
  "C84_compound_bca_list_fortran"
 ],
 "proofs": [
  "run_all_inv",
  "run_all_app"
 ],
 "dropped": [],
 "err": null,
 "unfailed_claims": []
}