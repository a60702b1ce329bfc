{
 "id": "b01",
 "failed": [
  "C95_cpr_root_finder",
  "C95_cpr_root_finder_outermost",
  "C95_polynomial_root_finder"
 ],
 "proofs": [
  "max_root_R"
 ],
 "dropped": [],
 "err": null,
 "unfailed_claims": [],
 "tightened": [
  "C95_polynomial_root_finder",
  "C95_cpr_root_finder",
  "C95_cpr_root_finder_outermost"
 ]
}