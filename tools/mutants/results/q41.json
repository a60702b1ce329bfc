{
 "id": "q41",
 "failed": [
  "C117_accepted_exactly_when_consistent",
  "C117_same_for_every_stream"
 ],
 "proofs": [
  "draw_x_iff",
  "point_file_accepted"
 ],
 "dropped": [],
 "err": null,
 "unfailed_claims": []
}