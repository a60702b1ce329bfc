(** * PropertiesZones.v - C106: how far surfaces bind and particles are followed *)
From Coq Require Import ZArith List Bool Reals Lra Lia.
From Verif Require Import Num NumR ModelTypes ModelConsts ModelGeometry ModelMaterial SpecR SpecZones ProofsBase ProofsFrame ProofsSampling ProofsGeometry ProofsLibR.
Import ListNotations.
Open Scope R_scope.

Lemma thickness_is u (ds : list R) : 0 < u -> Forall (fun d => 0 <= d) ds -> 0 < Rsum ds ->
  barrier_thickness_of (convert_densities u ds) = binding_distance (per_cubic_metre u ds) /\
  0 < binding_distance (per_cubic_metre u ds).
Proof.
  intros Hu Hd Hs. destruct (convert_pos u ds Hu Hd Hs) as [_ Hc].
  assert (E : barrier_thickness_of (convert_densities u ds) = binding_distance (per_cubic_metre u ds)).
  { unfold barrier_thickness_of, binding_distance, per_cubic_metre. rewrite nsum_R. fold (Rsum (convert_densities u ds)).
    rewrite npowf_pos by exact Hc. rewrite cSQRTPI_R, !nZ_R. toR.
    rewrite convert_R, Rsum_scale. fold (Rsum ds). replace (-1 / 3) with (- (1 / 3)) by lra. pose proof sqrt_pi_pos. field. lra. }
  split; [exact E|]. rewrite <- E. apply thickness_pos, Hc.
Qed.

(** A half-space binds one binding distance above its surface and is simulated
    up to ten. *)
Theorem C106_half_space :
  forall input g u, mesh0d_new input = Ok g -> length_unit_value (m0i_length_unit input) = Ok u -> 0 < u ->
    Forall (fun d => 0 <= d) (m0i_densities input) -> 0 < Rsum (m0i_densities input) ->
    let t := binding_distance (per_cubic_metre u (m0i_densities input)) in
    0 < t /\ zones (mesh0d_geometry g) (fun x _ _ => 0 < x) (fun x _ _ => - t < x) (fun x _ _ => - (10 * t) < x).
Proof.
  intros input g u H Hu Hup Hd Hs t. destruct (thickness_is u _ Hup Hd Hs) as [Et Ht]. fold t in Et, Ht. split; [exact Ht|].
  unfold mesh0d_new in H. rewrite Hu in H. cbn [bind] in H. apply Ok_inj in H. subst g.
  intros x y z. cbn [mesh0d_geometry g_inside g_inside_energy_barrier g_inside_simulation_boundary m0_energy_barrier_thickness].
  rewrite Et, !nZ_R. toR. split; [|split].
  - rewrite nlt_true. reflexivity.
  - eexists. split; [reflexivity|]. rewrite nlt_true. reflexivity.
  - rewrite nlt_true. lra.
Qed.
Print Assumptions C106_half_space.

(** A layered target ends below the sum of its layers; its upper surface binds
    and is followed by the density of the first layer, its lower surface by that
    of the last. *)
Theorem C106_layers :
  forall input g u first last, mesh1d_new input = Ok g -> length_unit_value (m1i_length_unit input) = Ok u -> 0 < u ->
    length (m1i_cks input) = length (m1i_densities input) ->
    Forall (fun ds => Forall (fun d => 0 <= d) ds /\ 0 < Rsum ds) (m1i_densities input) ->
    nth_error (m1i_densities input) 0 = Some first ->
    nth_error (m1i_densities input) (length (m1i_densities input) - 1) = Some last ->
    let bottom := Rsum (m1i_layer_thicknesses input) * u in
    let t := binding_distance (per_cubic_metre u first) in
    let t' := binding_distance (per_cubic_metre u last) in
    0 < bottom /\ 0 < t /\ 0 < t' /\
    zones (mesh1d_geometry g) (fun x _ _ => 0 < x < bottom) (fun x _ _ => - t < x < bottom + t')
      (fun x _ _ => - (10 * t) < x < bottom + 10 * t').
Proof.
  intros input g u first last H Hu Hup Hck Hd Hfirst Hlast bottom t t'.
  apply mesh1d_new_inv in H. destruct H as (u' & rows & first' & last' & Hu' & Hrows & Hlen & Hl & Htop & Hf & Hla & Ht1 & Ht2).
  rewrite Hu in Hu'. injection Hu' as <-.
  pose proof (layers_data _ _ _ _ _ Hl) as Hdata.
  assert (Hn : length rows = length (m1i_densities input)).
  { rewrite Hrows, !combine_length, map_length. lia. }
  assert (Hn' : length (m1_layers g) = length (m1i_densities input)).
  { rewrite <- Hn. symmetry. clear -Hdata. induction Hdata; cbn; congruence. }
  assert (Hrow : forall i l ds, nth_error (m1_layers g) i = Some l -> nth_error (m1i_densities input) i = Some ds ->
                   l_densities l = convert_densities u ds).
  { intros i l ds Hi Hds. destruct (Forall2_nth _ _ _ _ _ Hdata Hi) as (row & Hr & E & _). rewrite E.
    rewrite Hrows in Hr. clear -Hr Hds. revert i row Hr Hds.
    generalize (m1i_layer_thicknesses input) (m1i_cks input) (m1i_densities input).
    induction l as [|a l IH]; intros [|c cs] [|d dss] [|i] row Hr Hds; cbn in *; try discriminate; try (destruct i; discriminate).
    - injection Hr as <-. injection Hds as <-. reflexivity.
    - eapply IH; eassumption. }
  rewrite Hn' in Hla.
  pose proof (Hrow _ _ _ Hf Hfirst) as E1. pose proof (Hrow _ _ _ Hla Hlast) as E2. rewrite E1 in Ht1. rewrite E2 in Ht2.
  pose proof (proj1 (Forall_forall _ _) Hd) as Hd'.
  destruct (Hd' _ (nth_error_In _ _ Hfirst)) as [D1 S1]. destruct (Hd' _ (nth_error_In _ _ Hlast)) as [D2 S2].
  destruct (thickness_is u first Hup D1 S1) as [T1 P1]. destruct (thickness_is u last Hup D2 S2) as [T2 P2].
  rewrite T1 in Ht1. rewrite T2 in Ht2. fold t in P1, Ht1. fold t' in P2, Ht2.
  assert (Hb : m1_bottom g = bottom).
  { assert (K : forall rows top layers b, mesh1d_layers u top top rows = Ok (layers, b) ->
              b = top + Rsum (map (fun r => fst (fst r)) rows) * u).
    { clear. induction rows as [|[[th ds] ck] rows IH]; intros top layers b H; cbn [mesh1d_layers] in H.
      - injection H as _ <-. cbn. ring.
      - apply bind_ok in H. destruct H as (l & _ & H). apply bind_ok in H. destruct H as ([ls b'] & Hls & H).
        injection H as _ <-. apply IH in Hls. rewrite Hls. cbn [map fst]. unfold Rsum. cbn [fold_right]. toR. ring. }
    rewrite (K _ _ _ _ Hl), Hrows. unfold bottom.
    assert (M : map (fun r : R * list R * R => fst (fst r)) (combine (combine (m1i_layer_thicknesses input) (map (convert_densities u) (m1i_densities input))) (m1i_cks input)) = m1i_layer_thicknesses input).
    { clear -Hlen Hck. revert Hlen Hck. generalize (m1i_densities input) (m1i_cks input). induction (m1i_layer_thicknesses input) as [|a l IH]; intros [|d ds] [|c cs] H1 H2; cbn in *; try discriminate; try reflexivity.
      rewrite IH; [reflexivity|congruence|congruence]. }
    rewrite M. ring. }
  assert (Hbp : 0 < bottom).
  { rewrite <- Hb. apply (chain_lt _ _ _ (layers_chain _ _ _ _ _ Hl)). intro E. rewrite E in Hf. discriminate Hf. }
  split; [exact Hbp|]. split; [exact P1|]. split; [exact P2|].
  intros x y z. cbn [mesh1d_geometry g_inside g_inside_energy_barrier g_inside_simulation_boundary].
  unfold mesh1d_inside. rewrite Htop, Ht1, Ht2, Hb, !nZ_R. toR. split; [|split].
  - rewrite andb_true_iff, !nlt_true. reflexivity.
  - eexists. split; [reflexivity|]. rewrite andb_true_iff, !nlt_true. lra.
  - rewrite andb_true_iff, !nlt_true. lra.
Qed.
Print Assumptions C106_layers.

Theorem C106_sphere :
  forall input g u, sphere_new input = Ok g -> length_unit_value (si_length_unit input) = Ok u -> 0 < u ->
    Forall (fun d => 0 <= d) (si_densities input) -> 0 < Rsum (si_densities input) ->
    let r := si_radius input * u in
    let t := binding_distance (per_cubic_metre u (si_densities input)) in
    0 < t /\ zones (sphere_geometry g) (fun x y z => radius x y z < r) (fun x y z => radius x y z < r + t)
               (fun x y z => radius x y z < r + 10 * t).
Proof.
  intros input g u H Hu Hup Hd Hs r t. destruct (thickness_is u _ Hup Hd Hs) as [Et Ht]. fold t in Et, Ht. split; [exact Ht|].
  unfold sphere_new in H. rewrite Hu in H. cbn [bind] in H. apply Ok_inj in H. subst g.
  intros x y z. cbn [sphere_geometry g_inside g_inside_energy_barrier g_inside_simulation_boundary s_energy_barrier_thickness s_radius].
  rewrite Et, !nZ_R. unfold sphere_r. rewrite !npowi2_R. toR. fold r. fold (radius x y z). split; [|split].
  - rewrite nlt_true. reflexivity.
  - eexists. split; [reflexivity|]. rewrite nlt_true. lra.
  - rewrite nlt_true. lra.
Qed.
Print Assumptions C106_sphere.

(** The ball, given correct answers of the ball queries of parry3d; its surface belongs to it. *)
Theorem C106_ball :
  forall mk_ball input g u, parryball_new mk_ball input = Ok g -> length_unit_value (si_length_unit input) = Ok u -> 0 < u ->
    ball_queries (si_radius input * u) (mk_ball (si_radius input * u)) ->
    Forall (fun d => 0 <= d) (si_densities input) -> 0 < Rsum (si_densities input) ->
    let r := si_radius input * u in
    let t := binding_distance (per_cubic_metre u (si_densities input)) in
    0 < t /\ zones (parryball_geometry g) (fun x y z => radius x y z <= r) (fun x y z => radius x y z < r + t)
               (fun x y z => radius x y z < r + 10 * t).
Proof.
  intros mk input g u H Hu Hup (Hq1 & Hq2) Hd Hs r t. destruct (thickness_is u _ Hup Hd Hs) as [Et Ht]. fold t in Et, Ht. split; [exact Ht|].
  unfold parryball_new in H. rewrite Hu in H. cbn [bind] in H. apply Ok_inj in H. subst g.
  intros x y z. cbn [parryball_geometry g_inside g_inside_energy_barrier g_inside_simulation_boundary pb_energy_barrier_thickness pb_ball].
  change (nmul (si_radius input) u) with (si_radius input * u).
  rewrite Et, Hq2, !nZ_R. toR. fold r. fold (radius x y z). split; [|split].
  - apply Hq1.
  - eexists. split; [reflexivity|]. rewrite nlt_true. unfold Rmax. destruct (Rle_dec 0 (radius x y z - r)); lra.
  - rewrite nlt_true. unfold Rmax. destruct (Rle_dec 0 (radius x y z - r)); lra.
Qed.
Print Assumptions C106_ball.

(** A homogeneous polygon binds inside and up to one binding distance from the
    boundary point that geo reports as closest, and on the boundary; particles
    are followed inside the given outer polygon. *)
Theorem C106_polygon :
  forall mk_polygon input g u, homogeneous2d_new mk_polygon input = Ok g ->
    length_unit_value (h2i_length_unit input) = Ok u -> 0 < u ->
    Forall (fun d => 0 <= d) (h2i_densities input) -> 0 < Rsum (h2i_densities input) ->
    let scaled := map (fun p => (fst p * u, snd p * u)) in
    let body := mk_polygon (scaled (h2i_points input)) in
    let t := binding_distance (per_cubic_metre u (h2i_densities input)) in
    0 < t /\
    forall x y z,
      g_inside (homogeneous2d_geometry g) x y z = poly_contains body x y /\
      g_inside_simulation_boundary (homogeneous2d_geometry g) x y z =
        poly_contains (mk_polygon (scaled (h2i_simulation_boundary_points input))) x y /\
      (poly_contains body x y = true -> g_inside_energy_barrier (homogeneous2d_geometry g) x y z = Ok true) /\
      (poly_contains body x y = false -> forall px py, poly_closest_point body x y = C_SinglePoint px py ->
         exists b, g_inside_energy_barrier (homogeneous2d_geometry g) x y z = Ok b /\
           (b = true <-> sqrt ((x - px) * (x - px) + (y - py) * (y - py)) < t)) /\
      (forall px py, poly_closest_point body x y = C_Intersection px py ->
         g_inside_energy_barrier (homogeneous2d_geometry g) x y z = Ok true).
Proof.
  intros mk input g u H Hu Hup Hd Hs scaled body t. destruct (thickness_is u _ Hup Hd Hs) as [Et Ht]. fold t in Et, Ht. split; [exact Ht|].
  unfold homogeneous2d_new in H. rewrite Hu in H. cbn [bind] in H. apply Ok_inj in H. subst g.
  intros x y z. cbn [homogeneous2d_geometry g_inside g_inside_energy_barrier g_inside_simulation_boundary h2_boundary h2_simulation_boundary h2_energy_barrier_thickness].
  rewrite Et. change (map (fun p : R * R => (fst p *! u, snd p *! u)) (h2i_points input)) with (scaled (h2i_points input)).
  change (map (fun p : R * R => (fst p *! u, snd p *! u)) (h2i_simulation_boundary_points input)) with (scaled (h2i_simulation_boundary_points input)).
  fold body. split; [reflexivity|]. split; [reflexivity|]. split; [|split].
  - intros ->. reflexivity.
  - intros -> px py ->. eexists. split; [reflexivity|]. rewrite !Rpowf_2. toR. rewrite nlt_true. reflexivity.
  - intros px py ->. destruct (poly_contains body x y); reflexivity.
Qed.
Print Assumptions C106_polygon.

(** A triangulated body binds inside and up to one binding distance from its
    surface, and particles are followed up to ten from its bounding box, in
    terms of parry3d's queries. *)
Theorem C106_triangulated_body :
  forall mk_mesh input g u, parrytrimesh_new mk_mesh input = Ok g ->
    length_unit_value (pti_length_unit input) = Ok u -> 0 < u ->
    Forall (fun d => 0 <= d) (pti_densities input) -> 0 < Rsum (pti_densities input) ->
    let body := mk_mesh (map (fun p => let '(x, y, z) := p in (x * u, y * u, z * u)) (pti_vertices input)) (pti_indices input) in
    let t := binding_distance (per_cubic_metre u (pti_densities input)) in
    0 < t /\
    let within x y z := tq_aabb_contains body x y z = true /\ tq_ray_hits_backface body x y z = Some true in
    zones (parrytrimesh_geometry g) within
      (fun x y z => within x y z \/ tq_distance_solid body x y z < t)
      (fun x y z => within x y z \/ tq_aabb_distance_solid body x y z < 10 * t).
Proof.
  intros mk input g u H Hu Hup Hd Hs body t. destruct (thickness_is u _ Hup Hd Hs) as [Et Ht]. fold t in Et, Ht. split; [exact Ht|].
  unfold parrytrimesh_new in H. rewrite Hu in H. cbn [bind] in H. apply Ok_inj in H. subst g. intros within x y z.
  cbn [parrytrimesh_geometry g_inside g_inside_energy_barrier g_inside_simulation_boundary pt_mesh pt_energy_barrier_thickness].
  change (mk _ (pti_indices input)) with body. rewrite Et, !nZ_R.
  assert (W : inside_trimesh body x y z = true <-> within x y z).
  { unfold inside_trimesh, within. destruct (tq_aabb_contains body x y z); cbn [negb]; [|split; [discriminate|intros [[=] _]]].
    destruct (tq_ray_hits_backface body x y z) as [[]|]; split; try discriminate; try tauto; intros [_ [=]]. }
  split; [exact W|]. destruct (inside_trimesh body x y z) eqn:E.
  - split; [exists true; split; [reflexivity|]; split; [left; tauto|reflexivity]|]. split; [left; tauto|reflexivity].
  - assert (NW : ~ within x y z) by (intro K; apply W in K; discriminate K). toR.
    split; [eexists; split; [reflexivity|]|]; rewrite nlt_true; tauto.
Qed.
Print Assumptions C106_triangulated_body.

(** Two layers 1 m and 2 m thick: the target is exactly 0 < x < 3. *)
Definition two_layers : Mesh1DInput R :=
  {| m1i_length_unit := LU_M; m1i_layer_thicknesses := [1; 2]; m1i_densities := [[1; 0]; [1; 3]]; m1i_cks := [1; 1] |}.
Example C106_two_layers : exists g, mesh1d_new two_layers = Ok g /\
  zones (mesh1d_geometry g) (fun x _ _ => 0 < x < 3)
    (fun x _ _ => - binding_distance 1 < x < 3 + binding_distance 4)
    (fun x _ _ => - (10 * binding_distance 1) < x < 3 + 10 * binding_distance 4).
Proof.
  assert (E : exists g, mesh1d_new two_layers = Ok g).
  { unfold mesh1d_new, two_layers. cbn [m1i_length_unit length_unit_value bind m1i_densities m1i_layer_thicknesses m1i_cks map].
    cbn [forallb length nth convert_densities map Nat.eqb andb rassert bind zip combine mesh1d_layers]. unfold layer1d_new.
    rewrite !nZ_R. replace (nlt 0 (0 +! 1 *! 1)) with true by (symmetry; apply nlt_true; toR; lra).
    cbn [rassert bind]. replace (nlt (0 +! 1 *! 1) (0 +! 1 *! 1 +! 2 *! 1)) with true by (symmetry; apply nlt_true; toR; lra).
    cbn [rassert bind]. eexists. reflexivity. }
  destruct E as [g H]. exists g. split; [exact H|].
  destruct (C106_layers two_layers g 1 [1; 0] [1; 3] H) as (_ & _ & _ & Z).
  - cbn [two_layers m1i_length_unit length_unit_value]. rewrite nZ_R. reflexivity.
  - lra.
  - reflexivity.
  - cbn [two_layers m1i_densities]. repeat (constructor; [split; [repeat (constructor; [lra|]); constructor|cbn; lra]|]). constructor.
  - reflexivity.
  - reflexivity.
  - cbn [two_layers m1i_layer_thicknesses] in Z.
    replace (Rsum [1; 2] * 1) with 3 in Z by (cbn; lra).
    replace (per_cubic_metre 1 [1; 0]) with 1 in Z by (unfold per_cubic_metre; cbn; lra).
    replace (per_cubic_metre 1 [1; 3]) with 4 in Z by (unfold per_cubic_metre; cbn; lra). exact Z.
Qed.
(** A half-space and a sphere with one atom per cubic metre. *)
Example C106_half_space_example : exists g,
  mesh0d_new (mkMesh0DInput LU_M [1] 1) = Ok g /\ g_inside_energy_barrier (mesh0d_geometry g) (- (1 / 2)) 0 0 = Ok true /\
  g_inside_simulation_boundary (mesh0d_geometry g) (-20) 0 0 = false.
Proof.
  assert (E : exists g, mesh0d_new (mkMesh0DInput LU_M [1] 1) = Ok g) by (eexists; reflexivity).
  destruct E as [g H]. exists g. split; [exact H|].
  destruct (C106_half_space (mkMesh0DInput LU_M [1] 1) g 1 H) as (_ & Z).
  - cbn [m0i_length_unit length_unit_value]. rewrite nZ_R. reflexivity.
  - lra.
  - cbn. repeat constructor. lra.
  - cbn. lra.
  - cbn [m0i_densities] in Z. replace (per_cubic_metre 1 [1]) with 1 in Z by (unfold per_cubic_metre; cbn; lra).
    assert (T : 1 <= binding_distance 1 < 4 / 3).
    { unfold binding_distance. replace (Rpower 1 (- (1 / 3))) with 1 by (unfold Rpower; rewrite ln_1, Rmult_0_r, exp_0; reflexivity).
      rewrite Rmult_1_r. exact two_over_sqrtpi. }
    split.
    + destruct (Z (- (1 / 2)) 0 0) as (_ & (b & Hb & Eb) & _). rewrite Hb. f_equal. apply Eb. lra.
    + destruct (Z (-20) 0 0) as (_ & _ & F). match goal with |- ?b = false => destruct b end; [|reflexivity].
      exfalso. pose proof (proj1 F eq_refl). lra.
Qed.
