(** * PropertiesGeometry.v - C32..C39, C76 *)
From Coq Require Import ZArith List Bool Lia Reals Lra.
From Verif Require Import Num ModelTypes ModelConsts ModelGeometry ProofsBase NumR SpecR ProofsSampling ProofsGeometry.
Import ListNotations.
Open Scope R_scope.

(** ** C32 *)
Theorem C32_half_space_is_nested :
  forall input g u, mesh0d_new input = Ok g -> length_unit_value (m0i_length_unit input) = Ok u -> 0 < u ->
    Forall (fun d => 0 <= d) (m0i_densities input) -> 0 < Rsum (m0i_densities input) ->
    nested (mesh0d_geometry g).
Proof.
  intros input g u H Hu Hup Hd Hs. unfold mesh0d_new in H. rewrite Hu in H. cbn [bind] in H. apply Ok_inj in H. subst g.
  destruct (convert_pos u _ Hup Hd Hs) as (_ & Hc). pose proof (thickness_pos _ Hc) as Ht.
  intros x y z. cbn [mesh0d_geometry g_inside g_inside_energy_barrier g_inside_simulation_boundary m0_energy_barrier_thickness].
  set (t := barrier_thickness_of _) in *. rewrite !nZ_R. toR. split.
  - intros Hx. bool_R. f_equal. bool_R. lra.
  - intros Hx. apply Ok_inj in Hx. bool_R. lra.
Qed.
Print Assumptions C32_half_space_is_nested.
Theorem C32_layered_target_is_nested :
  forall input g u, mesh1d_new input = Ok g -> length_unit_value (m1i_length_unit input) = Ok u -> 0 < u ->
    Forall (fun ds => Forall (fun d => 0 <= d) ds /\ 0 < Rsum ds) (m1i_densities input) ->
    nested (mesh1d_geometry g).
Proof.
  intros input g u H Hu Hup Hd. apply mesh1d_new_inv in H.
  destruct H as (u' & rows & first & last & Hu' & Hrows & _ & Hl & Ht & Hf & Hla & Ht1 & Ht2).
  rewrite Hu in Hu'. injection Hu' as <-.
  pose proof (layers_data _ _ _ _ _ Hl) as Hdata.
  assert (Hpos : forall i l, nth_error (m1_layers g) i = Some l -> 0 < barrier_thickness_of (l_densities l)).
  { intros i l Hi. destruct (Forall2_nth _ _ _ _ _ Hdata Hi) as (row & Hr & E & _).
    apply thickness_pos. rewrite E. apply nth_error_In in Hr. rewrite Hrows in Hr. destruct row as [[t ds] ck].
    apply in_combine_l in Hr. apply in_combine_r in Hr. apply in_map_iff in Hr. destruct Hr as (ds0 & <- & Hin).
    rewrite Forall_forall in Hd. destruct (Hd _ Hin). apply convert_pos; assumption. }
  pose proof (Hpos _ _ Hf) as Hp1. pose proof (Hpos _ _ Hla) as Hp2. rewrite <- Ht1 in Hp1. rewrite <- Ht2 in Hp2.
  pose proof (chain_le _ _ _ (layers_chain _ _ _ _ _ Hl)) as Hle.
  intros x y z. cbn [mesh1d_geometry g_inside g_inside_energy_barrier g_inside_simulation_boundary].
  unfold mesh1d_inside. rewrite Ht, !nZ_R. toR. split.
  - intros Hx. bool_R. f_equal. apply andb_true_iff. split; bool_R; lra.
  - intros Hx. apply Ok_inj in Hx. bool_R. apply andb_true_iff. split; bool_R; lra.
Qed.
Print Assumptions C32_layered_target_is_nested.
Theorem C32_sphere_is_nested :
  forall input g u, sphere_new input = Ok g -> length_unit_value (si_length_unit input) = Ok u -> 0 < u ->
    Forall (fun d => 0 <= d) (si_densities input) -> 0 < Rsum (si_densities input) ->
    nested (sphere_geometry g).
Proof.
  intros input g u H Hu Hup Hd Hs. unfold sphere_new in H. rewrite Hu in H. cbn [bind] in H. apply Ok_inj in H. subst g.
  destruct (convert_pos u _ Hup Hd Hs) as (_ & Hc). pose proof (thickness_pos _ Hc) as Ht.
  intros x y z. cbn [sphere_geometry g_inside g_inside_energy_barrier g_inside_simulation_boundary s_energy_barrier_thickness s_radius].
  set (t := barrier_thickness_of _) in *. rewrite !nZ_R. toR. split.
  - intros Hx. bool_R. f_equal. bool_R. lra.
  - intros Hx. apply Ok_inj in Hx. bool_R. lra.
Qed.
Print Assumptions C32_sphere_is_nested.
(** for the ball, given correct answers of the ball queries of parry3d *)
Theorem C32_ball_is_nested :
  forall mk_ball input g u, parryball_new mk_ball input = Ok g -> length_unit_value (si_length_unit input) = Ok u -> 0 < u ->
    ball_queries (si_radius input * u) (mk_ball (si_radius input * u)) ->
    Forall (fun d => 0 <= d) (si_densities input) -> 0 < Rsum (si_densities input) ->
    nested (parryball_geometry g).
Proof.
  intros mk input g u H Hu Hup (Hq1 & Hq2) Hd Hs. unfold parryball_new in H. rewrite Hu in H. cbn [bind] in H. apply Ok_inj in H. subst g.
  destruct (convert_pos u _ Hup Hd Hs) as (_ & Hc). pose proof (thickness_pos _ Hc) as Ht.
  intros x y z. cbn [parryball_geometry g_inside g_inside_energy_barrier g_inside_simulation_boundary pb_energy_barrier_thickness pb_ball].
  set (t := barrier_thickness_of _) in *. change (nmul (si_radius input) u) with (si_radius input * u).
  rewrite Hq2, !nZ_R. toR. set (s := sqrt _) in *. split.
  - intros Hx. apply Hq1 in Hx. fold s in Hx. f_equal. bool_R. unfold Rmax. destruct (Rle_dec 0 _); lra.
  - intros Hx. apply Ok_inj in Hx. bool_R. lra.
Qed.
Print Assumptions C32_ball_is_nested.
(** the 2D meshes, for every polygon predicate and every number type *)
Theorem C32_inside_2D_is_inside_barrier :
  forall (F : Type) (NF : Num F) x y z,
    (forall g : Mesh2D F, g_inside (mesh2d_geometry g) x y z = true -> g_inside_energy_barrier (mesh2d_geometry g) x y z = Ok true) /\
    (forall g : HomogeneousMesh2D F, g_inside (homogeneous2d_geometry g) x y z = true ->
       g_inside_energy_barrier (homogeneous2d_geometry g) x y z = Ok true) /\
    (forall g : ParryTriMesh F, g_inside (parrytrimesh_geometry g) x y z = true ->
       g_inside_energy_barrier (parrytrimesh_geometry g) x y z = Ok true /\
       g_inside_simulation_boundary (parrytrimesh_geometry g) x y z = true).
Proof.
  intros F NF x y z. split; [|split].
  - intros g H. cbn in *. rewrite H. reflexivity.
  - intros g H. cbn in *. rewrite H. reflexivity.
  - intros g H. cbn in *. rewrite H. auto.
Qed.
Print Assumptions C32_inside_2D_is_inside_barrier.
Definition m1_example (cks : list R) : Mesh1DInput R :=
  {| m1i_length_unit := LU_M; m1i_layer_thicknesses := [1; 2]; m1i_densities := [[1; 0]; [1; 3]]; m1i_cks := cks |}.
Lemma m1_example_ok ck1 ck2 : exists g, mesh1d_new (m1_example [ck1; ck2]) = Ok g /\ length (m1_layers g) = 2%nat.
Proof.
  unfold mesh1d_new, m1_example. cbn [m1i_length_unit length_unit_value bind m1i_densities m1i_layer_thicknesses m1i_cks map].
  cbn [forallb length nth convert_densities map Nat.eqb andb rassert bind zip combine mesh1d_layers]. unfold layer1d_new.
  rewrite !nZ_R. replace (nlt 0 (0 +! 1 *! 1)) with true by (symmetry; apply nlt_true; toR; lra).
  cbn [rassert bind]. replace (nlt (0 +! 1 *! 1) (0 +! 1 *! 1 +! 2 *! 1)) with true by (symmetry; apply nlt_true; toR; lra).
  cbn [rassert bind]. eexists. split; reflexivity.
Qed.
Example C32_applies : exists g, mesh1d_new (m1_example [1; 1]) = Ok g /\ nested (mesh1d_geometry g).
Proof.
  destruct (m1_example_ok 1 1) as (g & H & _). exists g. split; [exact H|].
  apply (C32_layered_target_is_nested _ g 1 H); [cbn [m1_example m1i_length_unit length_unit_value]; rewrite nZ_R; reflexivity|lra|].
  cbn [m1_example m1i_densities]. repeat (constructor; [split; [repeat (constructor; [lra|]); constructor|cbn; lra]|]). constructor.
Qed.

(** ** C33 *)
Theorem C33_layer_lookup_is_total_and_unambiguous :
  forall input g, mesh1d_new input = Ok g ->
  forall x y z, exists i l,
    nth_error (m1_layers g) i = Some l /\
    g_get_densities (mesh1d_geometry g) x y z = Ok (l_densities l) /\
    g_get_concentrations (mesh1d_geometry g) x y z = Ok (l_concentrations l) /\
    g_get_ck (mesh1d_geometry g) x y z = Ok (l_ck l) /\
    g_get_total_density (mesh1d_geometry g) x y z = Ok (Rsum (l_densities l)) /\
    (m1_top g < x < m1_bottom g ->
       l_top l < x <= l_bottom l /\
       forall j l', nth_error (m1_layers g) j = Some l' -> l_top l' < x <= l_bottom l' -> j = i) /\
    (x < m1_top g -> i = 0%nat) /\ (m1_bottom g <= x -> S i = length (m1_layers g)).
Proof.
  intros input g H x y z. destruct (mesh1d_select_spec _ _ x H) as (i & l & Hs & Hn & H1 & H2 & H3).
  exists i, l. cbn [mesh1d_geometry g_get_densities g_get_concentrations g_get_ck g_get_total_density].
  rewrite Hs. cbn [bind]. rewrite nsum_R. auto 12.
Qed.
Print Assumptions C33_layer_lookup_is_total_and_unambiguous.
Theorem C33_layers_tile_the_target :
  forall input g, mesh1d_new input = Ok g ->
    m1_top g < m1_bottom g /\
    (exists l, nth_error (m1_layers g) 0 = Some l /\ l_top l = m1_top g) /\
    (exists l, nth_error (m1_layers g) (length (m1_layers g) - 1) = Some l /\ l_bottom l = m1_bottom g) /\
    (forall i l, nth_error (m1_layers g) i = Some l -> l_top l < l_bottom l) /\
    (forall i l l', nth_error (m1_layers g) i = Some l -> nth_error (m1_layers g) (S i) = Some l' -> l_bottom l = l_top l').
Proof.
  intros input g H. apply mesh1d_new_inv in H.
  destruct H as (u & rows & first & last & _ & _ & _ & Hl & Ht & Hf & Hla & _ & _).
  pose proof (layers_chain _ _ _ _ _ Hl) as Hc. rewrite Ht.
  assert (Hne : m1_layers g <> []) by (destruct (m1_layers g); [discriminate Hf|discriminate]).
  split; [exact (chain_lt _ _ _ Hc Hne)|].
  split; [exists first; split; [exact Hf|]; clear - Hc Hf; revert Hf; destruct Hc; intros Hf; cbn in Hf; [discriminate|]; injection Hf as <-; reflexivity|].
  split; [|split].
  - exists last. split; [exact Hla|]. clear - Hc Hne Hla. revert Hne Hla.
    induction Hc as [|l ls b Hl Hc IH]; intros Hne Hla; [congruence|].
    destruct ls as [|l2 ls].
    + cbn in Hla. injection Hla as <-. inversion Hc. reflexivity.
    + apply IH; [discriminate|]. cbn [length] in *. replace (S (S (length ls)) - 1)%nat with (S (S (length ls) - 1)) in Hla by lia. exact Hla.
  - intros i l Hi. apply (chain_in _ _ _ _ _ Hc Hi).
  - clear - Hc. induction Hc as [|l0 ls b Hl Hc IH]; intros i l l' H1 H2; [destruct i; discriminate|].
    destruct i as [|i]; cbn in H1, H2; [|eapply IH; eassumption].
    injection H1 as <-. destruct Hc; cbn in H2; [discriminate|]. injection H2 as <-. reflexivity.
Qed.
Print Assumptions C33_layers_tile_the_target.
Example C33_applies : exists g, mesh1d_new (m1_example [1; 1]) = Ok g /\ length (m1_layers g) = 2%nat.
Proof. apply m1_example_ok. Qed.

(** ** C76: at the top surface itself (x = top) the getters describe the
    bottom layer *)
Theorem C76_refuted_top_surface_uses_the_bottom_layer :
  forall input g, mesh1d_new input = Ok g ->
  forall y z, exists l, nth_error (m1_layers g) (length (m1_layers g) - 1) = Some l /\
    g_get_densities (mesh1d_geometry g) (m1_top g) y z = Ok (l_densities l) /\
    g_get_concentrations (mesh1d_geometry g) (m1_top g) y z = Ok (l_concentrations l) /\
    g_get_ck (mesh1d_geometry g) (m1_top g) y z = Ok (l_ck l).
Proof.
  intros input g H y z. destruct (mesh1d_select_spec _ _ (m1_top g) H) as (i & l & Hs & Hn & _ & _ & H3).
  exists l. cbn [mesh1d_geometry g_get_densities g_get_concentrations g_get_ck].
  rewrite Hs. cbn [bind]. specialize (H3 (or_introl eq_refl)). rewrite <- H3.
  replace (S i - 1)%nat with i by lia. auto.
Qed.
Print Assumptions C76_refuted_top_surface_uses_the_bottom_layer.
(** in the two-layer example the correction factor at the surface is the lower layer's *)
Example C76_applies : exists g, mesh1d_new (m1_example [1; 5]) = Ok g /\ g_get_ck (mesh1d_geometry g) 0 0 0 = Ok 5.
Proof.
  destruct (m1_example_ok 1 5) as (g & H & Hlen). exists g. split; [exact H|].
  destruct (C76_refuted_top_surface_uses_the_bottom_layer _ g H 0 0) as (l & Hn & _ & _ & Hck).
  apply mesh1d_new_inv in H. destruct H as (u & rows & f & la & _ & Hrows & _ & Hl & Ht & _).
  rewrite Ht in Hck. rewrite Hck. f_equal.
  destruct (Forall2_nth _ _ _ _ _ (layers_data _ _ _ _ _ Hl) Hn) as (row & Hr & _ & _ & E & _). rewrite E.
  rewrite Hlen, Hrows in Hr. cbn in Hr. injection Hr as <-. reflexivity.
Qed.
(** What does hold: immediately below the surface it is the top layer. *)
Theorem C76_below_the_surface_it_is_the_top_layer_partial :
  forall input g first, mesh1d_new input = Ok g -> nth_error (m1_layers g) 0 = Some first ->
  forall x y z, m1_top g < x <= l_bottom first -> x < m1_bottom g ->
    g_get_densities (mesh1d_geometry g) x y z = Ok (l_densities first) /\
    g_get_ck (mesh1d_geometry g) x y z = Ok (l_ck first).
Proof.
  intros input g first H Hf x y z Hx Hb.
  destruct (mesh1d_select_spec _ _ x H) as (i & l & Hs & Hn & _ & H2 & _).
  destruct (H2 ltac:(lra)) as (_ & Hu).
  destruct (C33_layers_tile_the_target _ _ H) as (_ & (l0 & Hl0 & E0) & _).
  assert (l0 = first) by congruence. subst l0.
  assert (0%nat = i) by (eapply Hu; [exact Hf|lra]). subst i. assert (l = first) by congruence. subst l.
  cbn [mesh1d_geometry g_get_densities g_get_ck]. rewrite Hs. cbn [bind]. auto.
Qed.
Print Assumptions C76_below_the_surface_it_is_the_top_layer_partial.

(** ** C34 *)
(** a list of correction factors shorter than the list of layers drops the deeper layers *)
Theorem C34_refuted_short_ck_list_drops_layers :
  forall input g, mesh1d_new input = Ok g ->
    length (m1_layers g) = Nat.min (length (m1i_layer_thicknesses input)) (length (m1i_cks input)).
Proof.
  intros input g H. apply mesh1d_new_inv in H.
  destruct H as (u & rows & first & last & Hu & Hrows & Hlen & Hl & _).
  apply layers_length in Hl. destruct Hl as (Hl & _). rewrite Hl, Hrows, combine_length, combine_length, map_length. lia.
Qed.
Print Assumptions C34_refuted_short_ck_list_drops_layers.
Example C34_applies : exists g, mesh1d_new (m1_example [1]) = Ok g /\ length (m1_layers g) = 1%nat /\ m1_bottom g = 1 /\
  length (m1i_layer_thicknesses (m1_example [1])) = 2%nat.
Proof.
  unfold mesh1d_new, m1_example. cbn [m1i_length_unit length_unit_value bind m1i_densities m1i_layer_thicknesses m1i_cks map].
  cbn [forallb length nth convert_densities map Nat.eqb andb rassert bind zip combine mesh1d_layers]. unfold layer1d_new.
  rewrite !nZ_R. replace (nlt 0 (0 +! 1 *! 1)) with true by (symmetry; apply nlt_true; toR; lra).
  cbn [rassert bind]. eexists. split; [reflexivity|]. cbn. split; [reflexivity|]. split; [ring|reflexivity].
Qed.
(** What does hold: with enough correction factors every layer is kept. *)
Theorem C34_mesh_keeps_every_layer_partial :
  forall input g u, mesh1d_new input = Ok g -> length_unit_value (m1i_length_unit input) = Ok u ->
    (length (m1i_layer_thicknesses input) <= length (m1i_cks input))%nat ->
    length (m1_layers g) = length (m1i_layer_thicknesses input) /\
    m1_bottom g = Rsum (m1i_layer_thicknesses input) * u /\
    Forall2 (fun t l => l_bottom l - l_top l = t * u) (m1i_layer_thicknesses input) (m1_layers g).
Proof.
  intros input g u H Hu Hck. apply mesh1d_new_inv in H.
  destruct H as (u' & rows & first & last & Hu' & Hrows & Hlen & Hl & _). rewrite Hu in Hu'. injection Hu' as <-.
  pose proof (layers_data _ _ _ _ _ Hl) as Hdata. apply layers_length in Hl. destruct Hl as (Hl & Hb).
  assert (Hmap : map (fun row : R * list R * R => fst (fst row)) rows = m1i_layer_thicknesses input).
  { rewrite Hrows. clear - Hlen Hck. revert Hlen Hck. generalize (m1i_densities input), (m1i_cks input).
    induction (m1i_layer_thicknesses input) as [|t ts IH]; intros [|d ds] [|c cs] H1 H2; cbn in *; try lia; try reflexivity.
    f_equal. apply IH; lia. }
  split; [|split].
  - rewrite Hl. rewrite <- Hmap at 1. rewrite map_length. reflexivity.
  - rewrite Hb, Hmap. ring.
  - rewrite <- Hmap. clear - Hdata. induction Hdata as [|row l rows ls (_ & _ & _ & E) _ IH]; cbn [map]; constructor; [lra|exact IH].
Qed.
Print Assumptions C34_mesh_keeps_every_layer_partial.

(** ** C35 *)
Theorem C35_closest_point_half_space :
  forall (g : Mesh0D R) x y z, exists c,
    g_closest_point (mesh0d_geometry g) x y z = Ok (vx c, vy c, vz c) /\
    is_nearest (fun q => vx q = 0) (mkV x y z) c.
Proof.
  intros g x y z. exists (mkV 0 y z). cbn [mesh0d_geometry g_closest_point vx vy vz]. rewrite nZ_R. split; [reflexivity|].
  split; [reflexivity|]. intros [a b c] Hq. cbn in Hq. subst a. unfold vdist. apply sqrt_le_1_alt.
  unfold vdot, vminus. cbn [vx vy vz]. pose proof (Rle_0_sqr (b - y)). pose proof (Rle_0_sqr (c - z)). unfold Rsqr in *. lra.
Qed.
Print Assumptions C35_closest_point_half_space.
Theorem C35_closest_point_layers :
  forall (g : Mesh1D R) x y z, exists c,
    g_closest_point (mesh1d_geometry g) x y z = Ok (vx c, vy c, vz c) /\
    is_nearest (fun q => vx q = m1_top g \/ vx q = m1_bottom g) (mkV x y z) c.
Proof.
  intros g x y z. cbn [mesh1d_geometry g_closest_point]. toR.
  assert (H : forall t s, Rabs (x - t) <= Rabs (x - s) -> (t - x) * (t - x) <= (s - x) * (s - x)).
  { intros t s H. apply Rsqr_le_abs_1 in H. unfold Rsqr in H. lra. }
  assert (Hn : forall t b c, (t - x) * (t - x) <= (b - x) * (b - x) -> forall q : Vector R,
     vx q = c -> c = t \/ c = b -> vdist (mkV x y z) (mkV t y z) <= vdist (mkV x y z) q).
  { intros t b c Ht [a1 a2 a3] Hq Hc. cbn in Hq. subst a1. unfold vdist. apply sqrt_le_1_alt.
    unfold vdot, vminus. cbn [vx vy vz]. pose proof (Rle_0_sqr (a2 - y)). pose proof (Rle_0_sqr (a3 - z)). unfold Rsqr in *.
    destruct Hc; subst c; lra. }
  destruct (nlt (Rabs (x - m1_bottom g)) (Rabs (x - m1_top g))) eqn:E; bool_R.
  - exists (mkV (m1_bottom g) y z). split; [reflexivity|]. split; [right; reflexivity|].
    intros q Hq. eapply (Hn _ (m1_top g)); [apply H; lra|reflexivity|tauto].
  - exists (mkV (m1_top g) y z). split; [reflexivity|]. split; [left; reflexivity|].
    intros q Hq. eapply (Hn _ (m1_bottom g)); [apply H; lra|reflexivity|tauto].
Qed.
Print Assumptions C35_closest_point_layers.
Theorem C35_closest_point_sphere :
  forall (g : Sphere R) x y z, 0 <= s_radius g -> mkV x y z <> mkV 0 0 0 -> exists c,
    g_closest_point (sphere_geometry g) x y z = Ok (vx c, vy c, vz c) /\
    is_nearest (fun q => vdot q q = s_radius g * s_radius g) (mkV x y z) c.
Proof.
  intros g x y z Hr Hne.
  assert (Hs : 0 < sqrt (x * x + y * y + z * z)).
  { apply sqrt_lt_R0. pose proof (Rle_0_sqr x). pose proof (Rle_0_sqr y). pose proof (Rle_0_sqr z). unfold Rsqr in *.
    destruct (Req_dec (x * x + y * y + z * z) 0) as [E|E]; [|lra]. exfalso. apply Hne.
    f_equal; apply Rsqr_0_uniq; unfold Rsqr; lra. }
  eexists. split; [|apply (sphere_nearest _ x y z Hr Hs)].
  cbn [sphere_geometry g_closest_point vx vy vz]. rewrite sphere_r_R. toR. reflexivity.
Qed.
Print Assumptions C35_closest_point_sphere.
Example C35_applies : 0 <= s_radius {| s_densities := [1]; s_concentrations := [1]; s_radius := 2; s_ck := 1; s_energy_barrier_thickness := 1 |}
  /\ mkV 1 0 0 <> mkV 0 0 0.
Proof. split; [cbn; lra|]. intros E. injection E. lra. Qed.

(** ** C36 *)
Theorem C36_triangle_containment_is_containment :
  forall x1 x2 x3 y1 y2 y3 x y : R,
    (* twice the signed area is not zero *)
    (x1 - x3) * (y2 - y3) - (x2 - x3) * (y1 - y3) <> 0 ->
    triangle_contains (triangle_new x1 x2 x3 y1 y2 y3) x y = true <-> in_hull x1 y1 x2 y2 x3 y3 x y.
Proof.
  intros x1 x2 x3 y1 y2 y3 x y H. apply triangle_contains_hull. unfold tri_det.
  replace ((y2 - y3) * (x1 - x3) + (x3 - x2) * (y1 - y3)) with ((x1 - x3) * (y2 - y3) - (x2 - x3) * (y1 - y3)) by ring. exact H.
Qed.
Print Assumptions C36_triangle_containment_is_containment.
Example C36_applies : triangle_contains (triangle_new 0 1 0 0 0 1) (1/4) (1/4) = true.
Proof.
  apply C36_triangle_containment_is_containment; [lra|]. exists (1/2), (1/4), (1/4). repeat split; lra.
Qed.

(** ** C37 *)
Theorem C37_triangle_distance_is_the_distance_to_its_outline :
  forall x1 x2 x3 y1 y2 y3 x y : R,
    (x1, y1) <> (x2, y2) -> (x2, y2) <> (x3, y3) -> (x3, y3) <> (x1, y1) ->
    exists d, is_distance_to (fun px py => on_segment x1 y1 x2 y2 px py \/ on_segment x2 y2 x3 y3 px py \/ on_segment x3 y3 x1 y1 px py) x y d /\
      (d <= IZR ((2 ^ 53 - 1) * 2 ^ 971) (* f64::MAX *) ->
       triangle_distance_to (triangle_new x1 x2 x3 y1 y2 y3) x y = Ok d).
Proof.
  intros x1 x2 x3 y1 y2 y3 x y H1 H2 H3.
  destruct (triangle_distance_spec x1 x2 x3 y1 y2 y3 x y H1 H2 H3) as (d & Hd & _ & E).
  exists d. split; [exact Hd|]. intros Hm. rewrite E. f_equal. apply Rmin_left. exact Hm.
Qed.
Print Assumptions C37_triangle_distance_is_the_distance_to_its_outline.
Theorem C37_triangle_distance_panics_exactly_on_zero_length_sides :
  forall x1 x2 x3 y1 y2 y3 x y : R,
    (exists k, triangle_distance_to (triangle_new x1 x2 x3 y1 y2 y3) x y = Panic k) <->
    (x1, y1) = (x2, y2) \/ (x2, y2) = (x3, y3) \/ (x3, y3) = (x1, y1).
Proof. exact triangle_distance_panic. Qed.
Print Assumptions C37_triangle_distance_panics_exactly_on_zero_length_sides.
Example C37_applies : (0, 0) <> (1, 0) /\ (1, 0) <> (0, 1) /\ (0, 1) <> (0, 0).
Proof. repeat split; intros E; injection E; intros; lra. Qed.

(** ** C38 *)
Theorem C38_inside_lookup :
  forall (g : Mesh2D R) x y z, g_inside (mesh2d_geometry g) x y z = true ->
    (forall i c, nth_error (m2_mesh g) i = Some c -> triangle_contains (c_triangle c) x y = true ->
       (forall j c', (j < i)%nat -> nth_error (m2_mesh g) j = Some c' -> triangle_contains (c_triangle c') x y = false) ->
       g_get_densities (mesh2d_geometry g) x y z = Ok (c_densities c) /\
       g_get_concentrations (mesh2d_geometry g) x y z = Ok (c_concentrations c) /\
       g_get_ck (mesh2d_geometry g) x y z = Ok (c_ck c) /\
       g_get_total_density (mesh2d_geometry g) x y z = Ok (Rsum (c_densities c))) /\
    ((exists k, g_get_densities (mesh2d_geometry g) x y z = Panic k) <->
     (forall c, In c (m2_mesh g) -> triangle_contains (c_triangle c) x y = false)).
Proof.
  intros g x y z H. cbn [mesh2d_geometry g_inside g_get_densities g_get_concentrations g_get_ck g_get_total_density] in *.
  unfold mesh2d_select. rewrite H. split.
  - intros i c Hi Hc Hall.
    assert (Hf : find (fun c => triangle_contains (c_triangle c) x y) (m2_mesh g) = Some c).
    { revert i Hi Hall. induction (m2_mesh g) as [|c0 cs IH]; intros [|i] Hi Hall; cbn in Hi; try discriminate; cbn [find].
      - injection Hi as ->. rewrite Hc. reflexivity.
      - rewrite (Hall 0%nat c0) by (lia || reflexivity). apply (IH i Hi). intros j c' Hj Hn. apply (Hall (S j) c'); [lia|exact Hn]. }
    rewrite Hf. cbn [bind]. rewrite nsum_R. auto.
  - split.
    + intros (k & Hk) c Hin. destruct (find _ (m2_mesh g)) as [c'|] eqn:Hf; [discriminate Hk|].
      apply (find_none _ _ Hf). exact Hin.
    + intros Hall. destruct (find _ (m2_mesh g)) as [c'|] eqn:Hf; [|eexists; reflexivity].
      apply find_some in Hf. destruct Hf as (Hin & Ht). rewrite (Hall _ Hin) in Ht. discriminate Ht.
Qed.
Print Assumptions C38_inside_lookup.
Theorem C38_outside_lookup_is_a_nearest_cell :
  forall (g : Mesh2D R) x y z, g_inside (mesh2d_geometry g) x y z = false ->
    (* every cell has a distance, and one of them is below f64::MAX *)
    (forall c, In c (m2_mesh g) -> exists d, triangle_distance_to (c_triangle c) x y = Ok d) ->
    (exists c d, In c (m2_mesh g) /\ triangle_distance_to (c_triangle c) x y = Ok d /\ d < IZR ((2 ^ 53 - 1) * 2 ^ 971)) ->
    exists c d, In c (m2_mesh g) /\ triangle_distance_to (c_triangle c) x y = Ok d /\
      (forall c' d', In c' (m2_mesh g) -> triangle_distance_to (c_triangle c') x y = Ok d' -> d <= d') /\
      g_get_densities (mesh2d_geometry g) x y z = Ok (c_densities c) /\
      g_get_concentrations (mesh2d_geometry g) x y z = Ok (c_concentrations c) /\
      g_get_ck (mesh2d_geometry g) x y z = Ok (c_ck c) /\
      g_get_total_density (mesh2d_geometry g) x y z = Ok (Rsum (c_densities c)) /\
      g_inside_energy_barrier (mesh2d_geometry g) x y z = Ok (nlt d (m2_energy_barrier_thickness g)).
Proof.
  intros g x y z H Hok Hex. cbn [mesh2d_geometry g_inside g_get_densities g_get_concentrations g_get_ck g_get_total_density g_inside_energy_barrier] in *.
  assert (Hl : forall cells k md index, (forall c, In c cells -> exists d, triangle_distance_to (c_triangle c) x y = Ok d) ->
     exists r, mesh2d_nearest_loop cells k x y md index = Ok r).
  { induction cells as [|c cells IH]; intros k md index Hc; cbn [mesh2d_nearest_loop]; [eauto|].
    destruct (Hc c (or_introl eq_refl)) as (d & ->). cbn [bind]. destruct (nlt d md); apply IH; intros; apply Hc; right; assumption. }
  destruct (Hl (m2_mesh g) 0%nat nmax_value 0%nat Hok) as (i & Hi).
  assert (Hnear : exists c, mesh2d_nearest_to g x y = Ok c).
  { unfold mesh2d_nearest_to. rewrite Hi. cbn [bind]. apply nearest_loop_spec in Hi. destruct Hi as (ds & Hds & [(-> & _)|(i' & d & -> & Hn & _)]).
    - apply idx_lt. destruct Hex as (c & _ & Hin & _). destruct (m2_mesh g); [destruct Hin|cbn; lia].
    - apply (Forall2_nth _ _ _ _ _ Hds) in Hn. destruct Hn as (c & Hc & _). unfold idx. cbn [Nat.add]. rewrite Hc. eauto. }
  destruct Hnear as (c & Hc). destruct (nearest_to_spec g x y c Hc) as (Hin & d & Hd & Hmin).
  { destruct Hex as (c' & d' & H1 & H2 & H3). exists c', d'. auto. }
  exists c, d. unfold mesh2d_select. rewrite H, Hc. cbn [bind]. rewrite Hd. cbn [bind]. rewrite nsum_R.
  split; [exact Hin|]. split; [reflexivity|]. split; [|auto 6].
  intros c' d' Hin' Hd'. destruct (Hmin c' Hin') as (d'' & E & Hle). congruence.
Qed.
Print Assumptions C38_outside_lookup_is_a_nearest_cell.
Definition g2_example : Mesh2D R := {|
  m2_mesh := [{| c_triangle := triangle_new 0 1 0 0 0 1; c_densities := [1]; c_concentrations := [1]; c_ck := 1 |}];
  m2_boundary := mkPolygon (fun x y => nlt 0 x) (fun x y => C_Indeterminate);
  m2_simulation_boundary := mkPolygon (fun x y => true) (fun x y => C_Indeterminate);
  m2_energy_barrier_thickness := 1 |}.
Example C38_applies :
  g_inside (mesh2d_geometry g2_example) (-1) 0 0 = false /\
  exists d, triangle_distance_to (triangle_new 0 1 0 0 0 1) (-1) 0 = Ok d /\ d < IZR ((2 ^ 53 - 1) * 2 ^ 971).
Proof.
  split; [cbn [mesh2d_geometry g_inside g2_example m2_boundary poly_contains]; apply nlt_false; lra|].
  destruct C37_applies as (H1 & H2 & H3).
  destruct (triangle_distance_spec 0 1 0 0 0 1 (-1) 0 H1 H2 H3) as (d & (_ & Hd) & _ & E).
  exists (Rmin d MAXF). split; [exact E|]. fold MAXF.
  assert (d <= 1).
  { specialize (Hd 0 0). assert (dist2 (-1) 0 0 0 = 1).
    { unfold dist2. replace ((-1 - 0) * (-1 - 0) + (0 - 0) * (0 - 0)) with 1 by ring. apply sqrt_1. }
    rewrite <- H. apply Hd. left. exists 0. repeat split; lra. }
  pose proof MAXF_big. unfold Rmin. destruct (Rle_dec d MAXF); lra.
Qed.

(** ** C39 *)
Theorem C39_concentrations_are_a_probability_vector :
  forall u, 0 < u ->
  (* half-space, sphere, ball, homogeneous 2D *)
  (forall densities, Forall (fun d => 0 <= d) densities -> 0 < Rsum densities ->
    (forall input g, mesh0d_new input = Ok g -> length_unit_value (m0i_length_unit input) = Ok u -> m0i_densities input = densities ->
       forall x y z, exists cs, g_get_concentrations (mesh0d_geometry g) x y z = Ok cs /\ probability_vector (length densities) cs) /\
    (forall input g, sphere_new input = Ok g -> length_unit_value (si_length_unit input) = Ok u -> si_densities input = densities ->
       forall x y z, exists cs, g_get_concentrations (sphere_geometry g) x y z = Ok cs /\ probability_vector (length densities) cs) /\
    (forall mk input g, parryball_new mk input = Ok g -> length_unit_value (si_length_unit input) = Ok u -> si_densities input = densities ->
       forall x y z, exists cs, g_get_concentrations (parryball_geometry g) x y z = Ok cs /\ probability_vector (length densities) cs) /\
    (forall mk input g, homogeneous2d_new mk input = Ok g -> length_unit_value (h2i_length_unit input) = Ok u -> h2i_densities input = densities ->
       forall x y z, exists cs, g_get_concentrations (homogeneous2d_geometry g) x y z = Ok cs /\ probability_vector (length densities) cs)) /\
  (* layered and 2D meshes: the concentrations of every point *)
  (forall input g, mesh1d_new input = Ok g -> length_unit_value (m1i_length_unit input) = Ok u ->
     Forall (fun ds => Forall (fun d => 0 <= d) ds /\ 0 < Rsum ds) (m1i_densities input) ->
     forall x y z, exists cs, g_get_concentrations (mesh1d_geometry g) x y z = Ok cs /\ probability_vector (length cs) cs) /\
  (forall mk input g, mesh2d_new mk input = Ok g -> length_unit_value (m2i_length_unit input) = Ok u ->
     Forall (fun ds => Forall (fun d => 0 <= d) ds /\ 0 < Rsum ds) (m2i_densities input) ->
     forall x y z cs, g_get_concentrations (mesh2d_geometry g) x y z = Ok cs -> probability_vector (length cs) cs).
Proof.
  intros u Hu.
  assert (Hp : forall ds, Forall (fun d => 0 <= d) ds -> 0 < Rsum ds ->
     probability_vector (length ds) (concentrations_of (convert_densities u ds))).
  { intros ds Hd Hs. destruct (convert_pos u ds Hu Hd Hs) as (Hd' & Hs').
    destruct (concentrations_probability _ Hd' Hs') as (H1 & H2 & H3).
    split; [rewrite H3; unfold convert_densities; apply map_length|]. auto. }
  split; [|split].
  - intros ds Hd Hs. repeat split.
    + intros input g H Hlu E x y z. unfold mesh0d_new in H. rewrite Hlu in H. cbn [bind] in H. apply Ok_inj in H. subst g.
      eexists. split; [reflexivity|]. cbn [m0_concentrations]. rewrite E. apply Hp; assumption.
    + intros input g H Hlu E x y z. unfold sphere_new in H. rewrite Hlu in H. cbn [bind] in H. apply Ok_inj in H. subst g.
      eexists. split; [reflexivity|]. cbn [s_concentrations]. rewrite E. apply Hp; assumption.
    + intros mk input g H Hlu E x y z. unfold parryball_new in H. rewrite Hlu in H. cbn [bind] in H. apply Ok_inj in H. subst g.
      eexists. split; [reflexivity|]. cbn [pb_concentrations]. rewrite E. apply Hp; assumption.
    + intros mk input g H Hlu E x y z. unfold homogeneous2d_new in H. rewrite Hlu in H. cbn [bind] in H. apply Ok_inj in H. subst g.
      eexists. split; [reflexivity|]. cbn [h2_concentrations]. rewrite E. apply Hp; assumption.
  - intros input g H Hlu Hd x y z.
    destruct (C33_layer_lookup_is_total_and_unambiguous _ _ H x y z) as (i & l & Hn & _ & Hc & _).
    exists (l_concentrations l). split; [exact Hc|].
    apply mesh1d_new_inv in H. destruct H as (u' & rows & f & la & Hu' & Hrows & _ & Hl & _).
    rewrite Hlu in Hu'. injection Hu' as <-.
    destruct (Forall2_nth _ _ _ _ _ (layers_data _ _ _ _ _ Hl) Hn) as ([[t ds] ck] & Hr & _ & E & _). cbn [fst snd] in E. rewrite E.
    apply nth_error_In in Hr. rewrite Hrows in Hr. apply in_combine_l in Hr. apply in_combine_r in Hr.
    apply in_map_iff in Hr. destruct Hr as (ds0 & <- & Hin). rewrite Forall_forall in Hd. destruct (Hd _ Hin) as (Hd1 & Hd2).
    destruct (Hp _ Hd1 Hd2) as (H1 & H2 & H3). split; [reflexivity|]. auto.
  - intros mk input g H Hlu Hd x y z cs Hcs.
    unfold mesh2d_new in H. rewrite Hlu in H. cbn [bind] in H.
    apply bind_ok in H. destruct H as (? & _ & H). apply bind_ok in H. destruct H as (? & _ & H).
    apply bind_ok in H. destruct H as (cells & Hcells & H). apply bind_ok in H. destruct H as (bps & _ & H). 
    assert (Hm : m2_mesh g = cells) by (injection H as <-; reflexivity). clear H.
    cbn [mesh2d_geometry g_get_concentrations] in Hcs. apply bind_ok in Hcs. destruct Hcs as (c & Hsel & Hcs). injection Hcs as <-.
    assert (Hin : In c cells).
    { rewrite <- Hm. unfold mesh2d_select in Hsel. destruct (poly_contains _ _ _).
      - destruct (find _ _) eqn:Hf; [|discriminate Hsel]. injection Hsel as <-. apply find_some in Hf. tauto.
      - unfold mesh2d_nearest_to in Hsel. apply bind_ok in Hsel. destruct Hsel as (i & _ & Hsel). apply idx_ok in Hsel. eapply nth_error_In; exact Hsel. }
    apply mapM_ok in Hcells. apply In_nth_error in Hin. destruct Hin as (i & Hi).
    destruct (Forall2_nth _ _ _ _ _ Hcells Hi) as ([[[[i1 i2] i3] ds] ck] & Hr & Hcell).
    unfold mesh2d_cell in Hcell. apply bind_ok in Hcell. destruct Hcell as (p1 & _ & Hcell).
    apply bind_ok in Hcell. destruct Hcell as (p2 & _ & Hcell). apply bind_ok in Hcell. destruct Hcell as (p3 & _ & Hcell).
    injection Hcell as <-. cbn [c_concentrations].
    apply nth_error_In in Hr. unfold zip in Hr. apply in_combine_l in Hr. apply in_combine_r in Hr.
    apply in_map_iff in Hr. destruct Hr as (ds0 & <- & Hin). rewrite Forall_forall in Hd. destruct (Hd _ Hin) as (Hd1 & Hd2).
    destruct (Hp _ Hd1 Hd2) as (H1 & H2 & H3). split; [reflexivity|]. auto.
Qed.
Print Assumptions C39_concentrations_are_a_probability_vector.
Example C39_applies : exists g, mesh1d_new (m1_example [1; 1]) = Ok g /\
  Forall (fun ds => Forall (fun d => 0 <= d) ds /\ 0 < Rsum ds) (m1i_densities (m1_example [1; 1])).
Proof.
  destruct (m1_example_ok 1 1) as (g & H & _). exists g. split; [exact H|].
  cbn [m1_example m1i_densities]. repeat (constructor; [split; [repeat (constructor; [lra|]); constructor|cbn; lra]|]). constructor.
Qed.
