{
 "id": "l27",
 "failed": [
  "C102_reflection_coefficient",
  "C102_sputtering_yield",
  "C65_reflection_any_schedule_partial",
  "C65_yield_any_schedule"
 ],
 "proofs": [
  "counted_false",
  "counted_true",
  "counted_le_incident",
  "two_sputtered_true"
 ],
 "dropped": [],
 "err": null,
 "unfailed_claims": []
}