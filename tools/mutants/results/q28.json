{
 "id": "q28",
 "failed": [
  "C106_ball",
  "C106_half_space",
  "C106_layers",
  "C106_polygon",
  "C106_sphere",
  "C106_triangulated_body"
 ],
 "proofs": [
  "thickness_pos",
  "thickness_R",
  "thickness_is"
 ],
 "dropped": [],
 "err": null,
 "unfailed_claims": []
}