{
 "id": "l21",
 "failed": [
  "C84_fortran_count"
 ],
 "proofs": [
  "C84_fortran_count"
 ],
 "dropped": [],
 "err": null,
 "unfailed_claims": []
}