{
 "id": "b10",
 "failed": [
  "C96_degree_nine",
  "C96_no_potential"
 ],
 "proofs": [
  "gl_weights_R"
 ],
 "dropped": [],
 "err": null,
 "unfailed_claims": [],
 "tightened": [
  "C96_degree_nine",
  "C96_no_potential"
 ]
}