(** * PropertiesMesh.v - C110: every point of a 2D mesh has a cell *)
From Coq Require Import ZArith List Bool Reals Lra Lia Floats.SpecFloat.
From Verif Require Import Num NumR NumSF ModelTypes ModelConsts ModelParticle ModelGeometry ModelMaterial ModelBca
  Spec SpecR SpecMesh ProofsBase ProofsGeometry ProofsEntry ToyMesh.
Import ListNotations.
Open Scope R_scope.

(** In exact arithmetic a lookup inside the boundary succeeds wherever a
    triangle covers the point, edges and corners included, and returns the data
    of a cell that contains it. *)
Theorem C110_a_covered_point_has_a_cell_partial :
  forall (g : Mesh2D R) x y z,
    g_inside (mesh2d_geometry g) x y z = true -> Forall has_area (m2_mesh g) -> (exists c, In c (m2_mesh g) /\ in_cell c x y) ->
    exists c, In c (m2_mesh g) /\ in_cell c x y /\
      g_get_densities (mesh2d_geometry g) x y z = Ok (c_densities c) /\
      g_get_concentrations (mesh2d_geometry g) x y z = Ok (c_concentrations c) /\
      g_get_ck (mesh2d_geometry g) x y z = Ok (c_ck c) /\
      g_get_total_density (mesh2d_geometry g) x y z = Ok (Rsum (c_densities c)).
Proof.
  intros g x y z Hi Ha (c0 & H0 & Hc0). cbn [mesh2d_geometry g_inside g_get_densities g_get_concentrations g_get_ck g_get_total_density] in *.
  assert (T : forall c, In c (m2_mesh g) -> triangle_contains (c_triangle c) x y = true <-> in_cell c x y).
  { intros c Hc. rewrite Forall_forall in Ha. specialize (Ha c Hc). unfold has_area, in_cell in *. cbv zeta in *.
    destruct (c_triangle c) as [x1 x2 x3 y1 y2 y3 ss]. cbn [t_x1 t_x2 t_x3 t_y1 t_y2 t_y3] in *.
    change (triangle_contains (mkTriangle2D x1 x2 x3 y1 y2 y3 ss) x y) with (triangle_contains (triangle_new x1 x2 x3 y1 y2 y3) x y).
    apply triangle_contains_hull. unfold tri_det. intro K. apply Ha. rewrite <- K. ring. }
  unfold mesh2d_select. rewrite Hi. destruct (find _ _) as [c|] eqn:E.
  - apply find_some in E. destruct E as (E1 & E2). exists c. split; [exact E1|]. split; [apply T; assumption|].
    cbn [bind]. rewrite nsum_R. auto.
  - exfalso. pose proof (find_none _ _ E c0 H0) as K. cbn in K. apply (T c0 H0) in Hc0. congruence.
Qed.
Print Assumptions C110_a_covered_point_has_a_cell_partial.
(** a rectangle in two triangles is covered completely *)
Example C110_rectangle_is_covered : forall mk_polygon, exists mesh : Mesh2D R, mesh2d_new mk_polygon rectangle_input = Ok mesh /\
  Forall has_area (m2_mesh mesh) /\
  forall x y : R, 0 < x < 10 * cANGSTROM -> 0 < y < 50 * cANGSTROM -> exists c, In c (m2_mesh mesh) /\ in_cell c x y.
Proof.
  intros mk. unfold mesh2d_new. eexists. split; [reflexivity|]. cbn [m2_mesh].
  pose proof angstrom_pos as HA. set (u := cANGSTROM : R) in *. split.
  - constructor; [|constructor; [|constructor]]; unfold has_area, triangle_new; cbv zeta;
      cbn [c_triangle t_x1 t_x2 t_x3 t_y1 t_y2 t_y3 fst snd]; rewrite !nZ_R; toR; nra.
  - intros x y Hx Hy. destruct (Rle_dec (10 * y) (50 * x)) as [L|L].
    + eexists. split; [left; reflexivity|]. unfold in_cell, triangle_new. cbv zeta.
      cbn [c_triangle t_x1 t_x2 t_x3 t_y1 t_y2 t_y3 fst snd]. rewrite !nZ_R. toR.
      exists (1 - x / (10 * u)), (x / (10 * u) - y / (50 * u)), (y / (50 * u)).
      assert (Q : x = x / (10 * u) * (10 * u)) by (field; lra). assert (Q2 : y = y / (50 * u) * (50 * u)) by (field; lra).
      set (a := x / (10 * u)) in *. set (b := y / (50 * u)) in *. clearbody a b. subst x y.
      assert (0 < a < 1) by (split; nra). assert (0 < b < 1) by (split; nra). assert (b <= a) by nra.
      repeat split; nra.
    + eexists. split; [right; left; reflexivity|]. unfold in_cell, triangle_new. cbv zeta.
      cbn [c_triangle t_x1 t_x2 t_x3 t_y1 t_y2 t_y3 fst snd]. rewrite !nZ_R. toR.
      exists (1 - y / (50 * u)), (x / (10 * u)), (y / (50 * u) - x / (10 * u)).
      assert (Q : x = x / (10 * u) * (10 * u)) by (field; lra). assert (Q2 : y = y / (50 * u) * (50 * u)) by (field; lra).
      set (a := x / (10 * u)) in *. set (b := y / (50 * u)) in *. clearbody a b. subst x y.
      assert (0 < a < 1) by (split; nra). assert (0 < b < 1) by (split; nra). assert (a <= b) by nra.
      repeat split; nra.
Qed.

(** In double precision it is not: a rectangle of 10 by 50 angstrom in two
    triangles, and the point (7, 35) angstrom of its diagonal, strictly between
    the sides.  Neither triangle contains it, so every lookup there panics - for
    every math library and every polygon code that puts the point inside. *)
Theorem C110_refuted_a_point_between_the_cells :
  forall (lm : Libm) mk_polygon, let _ := NumSF lm in
    exists mesh w h, mesh2d_new mk_polygon rectangle_input = Ok mesh /\
      m2_boundary mesh = mk_polygon [(nZ 0, nZ 0); (w, nZ 0); (w, h); (nZ 0, h)] /\
      (SFltb (nZ 0) diagonal_x = true /\ SFltb diagonal_x w = true /\ SFltb (nZ 0) diagonal_y = true /\ SFltb diagonal_y h = true) /\
      (g_inside (mesh2d_geometry mesh) diagonal_x diagonal_y (nZ 0) = true ->
       g_get_densities (mesh2d_geometry mesh) diagonal_x diagonal_y (nZ 0) = Panic ExplicitPanic /\
       g_get_concentrations (mesh2d_geometry mesh) diagonal_x diagonal_y (nZ 0) = Panic ExplicitPanic /\
       g_get_ck (mesh2d_geometry mesh) diagonal_x diagonal_y (nZ 0) = Panic ExplicitPanic).
Proof.
  intros lm mk N. destruct (rectangle_mesh lm mk) as (mesh & Hm & Hb & Hc).
  exists mesh, (nZ 10 *! cANGSTROM)%num, (nZ 50 *! cANGSTROM)%num. split; [exact Hm|].
  split; [rewrite Hb; unfold rectangle_corners; cbn [map fst snd]; repeat f_equal; vm_compute; reflexivity|].
  split; [exact (diagonal_inside lm)|]. intros Hi.
  cbn [mesh2d_geometry g_inside g_get_densities g_get_concentrations g_get_ck] in *.
  assert (E : mesh2d_select mesh diagonal_x diagonal_y = Panic ExplicitPanic).
  { unfold mesh2d_select. rewrite Hi. destruct (find _ _) as [c|] eqn:E; [|reflexivity].
    apply find_some in E. destruct E as (E1 & E2). assert (true = false) by exact (eq_trans (eq_sym E2) (Hc c E1)). discriminate. }
  rewrite E. auto.
Qed.
Print Assumptions C110_refuted_a_point_between_the_cells.

(** So the simulation of an accepted ion that gets there panics at once,
    whatever the material, the options and the random numbers. *)
Theorem C110_refuted_an_ion_between_the_cells :
  forall (lm : Libm) mk_polygon mesh build (mat : Material spec_float) options fuel rng, let _ := NumSF lm in
    mesh2d_new mk_polygon rectangle_input = Ok mesh -> mat_geometry mat = mesh2d_geometry mesh ->
    poly_contains (m2_boundary mesh) diagonal_x diagonal_y = true ->
    exists ion, from_input diagonal_ion options = Ok ion /\
      single_ion_bca build mat options (S fuel) ion rng 0%nat = Panic ExplicitPanic.
Proof.
  intros lm mk mesh build mat options fuel rng N Hm Hg Hi.
  destruct (diagonal_accepted lm options) as (ion & H1 & H2 & H3). exists ion. split; [exact H1|].
  apply no_density; [exact H2|]. rewrite Hg, H3. cbn [vx vy vz].
  destruct (C110_refuted_a_point_between_the_cells lm mk) as (mesh' & w & h & Hm' & _ & _ & H).
  assert (mesh' = mesh) by (unfold N in *; congruence). subst mesh'. apply H. exact Hi.
Qed.
Print Assumptions C110_refuted_an_ion_between_the_cells.
Example C110_applies : forall lm : Libm, let _ := NumSF lm in
  exists mesh, mesh2d_new box_polygon rectangle_input = Ok mesh /\ poly_contains (m2_boundary mesh) diagonal_x diagonal_y = true.
Proof.
  intros lm N. destruct (rectangle_mesh lm (@box_polygon _ (NumSF lm))) as (mesh & Hm & Hb & _). exists mesh. split; [exact Hm|].
  eapply eq_trans; [|exact (diagonal_in_box lm)]. f_equal. exact Hb.
Qed.
