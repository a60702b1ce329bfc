{
 "id": "l02",
 "failed": [
  "C70_start_inside_barrier_refuted",
  "C71_stopped_ion_reported_refuted"
 ],
 "proofs": [
  "start_x_R"
 ],
 "dropped": [],
 "err": null,
 "unfailed_claims": []
}