{
 "id": "l29",
 "failed": [
  "C102_reflection_coefficient",
  "C65_reflection_any_schedule_partial"
 ],
 "proofs": [
  "C65_reflection_any_schedule_partial"
 ],
 "dropped": [],
 "err": null,
 "unfailed_claims": []
}