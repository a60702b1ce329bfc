{
 "id": "m06",
 "failed": [
  "C29_bulk_binding_models_partial"
 ],
 "proofs": [
  "C29_bulk_binding_models_partial"
 ],
 "dropped": [],
 "err": null,
 "unfailed_claims": [],
 "tightened": [
  "C29_bulk_binding_models_partial"
 ]
}