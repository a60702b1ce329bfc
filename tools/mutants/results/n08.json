{
 "id": "n08",
 "failed": [
  "C50_implemented_combinations_partial"
 ],
 "proofs": [
  "implemented_quiet"
 ],
 "dropped": [],
 "err": null,
 "unfailed_claims": []
}