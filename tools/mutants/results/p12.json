{
 "id": "p12",
 "failed": [
  "C53_tagged_ion_loses_its_tag",
  "C53_toml_particles_partial",
  "C53_weight_and_tag_refuted"
 ],
 "proofs": [
  "C53_weight_and_tag_refuted",
  "C53_tagged_ion_loses_its_tag"
 ],
 "dropped": [],
 "err": null,
 "unfailed_claims": []
}