{
 "id": "l03",
 "failed": [
  "C63_nonvacuous",
  "C70_start_inside_barrier_refuted",
  "C71_stopped_ion_reported_refuted",
  "C74_normal_incidence_run_refuted"
 ],
 "proofs": [
  "start_x_R",
  "C63_nonvacuous",
  "C74_normal_incidence_run_refuted"
 ],
 "dropped": [],
 "err": null,
 "unfailed_claims": []
}