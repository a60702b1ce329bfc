{
 "id": "g12",
 "failed": [
  "C32_layered_target_is_nested",
  "C33_layer_lookup_is_total_and_unambiguous",
  "C33_layers_tile_the_target",
  "C34_mesh_keeps_every_layer_partial",
  "C34_refuted_short_ck_list_drops_layers",
  "C39_concentrations_are_a_probability_vector",
  "C76_below_the_surface_it_is_the_top_layer_partial",
  "C76_refuted_top_surface_uses_the_bottom_layer"
 ],
 "proofs": [
  "mesh1d_new_inv"
 ],
 "dropped": [],
 "err": null,
 "unfailed_claims": []
}