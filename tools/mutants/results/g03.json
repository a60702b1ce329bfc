{
 "id": "g03",
 "failed": [
  "C106_ball",
  "C106_half_space",
  "C106_layers",
  "C106_polygon",
  "C106_sphere",
  "C106_triangulated_body"
 ],
 "proofs": [
  "thickness_pos",
  "thickness_R",
  "thickness_is"
 ],
 "dropped": [],
 "err": null,
 "unfailed_claims": [],
 "tightened": [
  "C106_ball",
  "C106_half_space",
  "C106_layers",
  "C106_polygon",
  "C106_sphere",
  "C106_triangulated_body"
 ],
 "note": "No claimed theorem failed before C106 was added; it fails now."
}