{
 "id": "l28",
 "failed": [
  "C102_sputtering_yield",
  "C65_yield_any_schedule"
 ],
 "proofs": [
  "yield_is_one",
  "C65_yield_any_schedule"
 ],
 "dropped": [],
 "err": null,
 "unfailed_claims": []
}