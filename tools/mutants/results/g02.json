{
 "id": "g02",
 "failed": [
  "C39_concentrations_are_a_probability_vector"
 ],
 "proofs": [
  "concentrations_R"
 ],
 "dropped": [],
 "err": null,
 "unfailed_claims": []
}