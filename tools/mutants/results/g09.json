{
 "id": "g09",
 "failed": [
  "C33_layer_lookup_is_total_and_unambiguous",
  "C39_concentrations_are_a_probability_vector",
  "C76_below_the_surface_it_is_the_top_layer_partial",
  "C76_refuted_top_surface_uses_the_bottom_layer"
 ],
 "proofs": [
  "chain_tiles"
 ],
 "dropped": [],
 "err": null,
 "unfailed_claims": []
}