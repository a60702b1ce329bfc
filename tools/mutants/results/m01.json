{
 "id": "m01",
 "failed": [],
 "proofs": [],
 "dropped": [],
 "err": null,
 "unfailed_claims": [],
 "note": "The edited getter (Material::get_concentrations) is not used by the simulation; the geometry's own concentrations are, and those are claimed."
}