{
 "id": "b25",
 "failed": [
  "C07_outward_ion_leaves_partial",
  "C07_refuted_parallel_ion_never_ends",
  "C13_refuted_rotation_onto_the_axis",
  "C14_partner_position_partial",
  "C14_refuted_offset_not_perpendicular"
 ],
 "proofs": [
  "recoil_offset_value",
  "recoil_far"
 ],
 "dropped": [],
 "err": null,
 "unfailed_claims": []
}