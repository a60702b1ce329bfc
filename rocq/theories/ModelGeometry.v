(** * ModelGeometry.v - geometry.rs, sphere.rs and the ball of parry.rs *)
From Coq Require Import ZArith List Bool.
From Verif Require Import Num ModelTypes ModelConsts.
Import ListNotations.
Open Scope Z_scope.
Open Scope num_scope.

Section Geometry.
  Context {F : Type} {NF : Num F}.

  (** The unit strings accepted by every constructor.  [LU_other] stands for
      any other string: [None] if it does not parse as a float (panic in
      [expect]), [Some v] if it does.
      geometry.rs 52-64, 143-154, 292-304, 442-453; sphere.rs 58-70;
      parry.rs 63-75; input.rs 495-507 *)
  Inductive LengthUnit : Type :=
  | LU_MICRON | LU_CM | LU_MM | LU_ANGSTROM | LU_NM | LU_M | LU_other (parsed : option F).
  Definition length_unit_value (u : LengthUnit) : Res F :=
    match u with
    | LU_MICRON => Ok cMICRON
    | LU_CM => Ok cCM
    | LU_MM => Ok cMM
    | LU_ANGSTROM => Ok cANGSTROM
    | LU_NM => Ok cNM
    | LU_M => Ok (nZ 1)
    | LU_other (Some v) => Ok v
    | LU_other None => Panic UnwrapErr
    end.

  (** The common constructor computations: densities per m^3, concentrations,
      barrier thickness.  geometry.rs 68-74, 156-158, 174-175, 181-182,
      312-318, 455-457, 486-487; sphere.rs 73-76; parry.rs 78-81 *)
  Definition convert_densities (length_unit : F) (densities : list F) : list F :=
    map (fun element => element /! npowi length_unit 3) densities.
  Definition concentrations_of (densities : list F) : list F :=
    let total_density := nsum densities in
    map (fun density => density /! total_density) densities.
  Definition barrier_thickness_of (densities : list F) : F :=
    npowf (nsum densities) (nZ (-1) /! nZ 3) /! cSQRTPI *! nZ 2.

  (** ** Mesh0D: geometry.rs 31-111 *)
  Record Mesh0DInput : Type := mkMesh0DInput {
    m0i_length_unit : LengthUnit; m0i_densities : list F; m0i_ck : F }.
  Record Mesh0D : Type := mkMesh0D {
    m0_densities : list F; m0_concentrations : list F; m0_ck : F; m0_energy_barrier_thickness : F }.
  (** geometry.rs 50-82 *)
  Definition mesh0d_new (input : Mesh0DInput) : Res Mesh0D :=
    let! length_unit := length_unit_value (m0i_length_unit input) in
    let densities := convert_densities length_unit (m0i_densities input) in
    Ok {| m0_densities := densities;
          m0_concentrations := concentrations_of densities;
          m0_ck := m0i_ck input;
          m0_energy_barrier_thickness := barrier_thickness_of densities |}.
  (** geometry.rs 84-110 *)
  Definition mesh0d_geometry (g : Mesh0D) : Geometry F :=
    {| g_get_densities := fun _ _ _ => Ok (m0_densities g);
       g_get_ck := fun _ _ _ => Ok (m0_ck g);
       g_get_total_density := fun _ _ _ => Ok (nsum (m0_densities g));
       g_get_concentrations := fun _ _ _ => Ok (m0_concentrations g);
       g_inside := fun x _ _ => x >! nZ 0;
       g_inside_simulation_boundary := fun x _ _ => x >! (nZ (-10) *! m0_energy_barrier_thickness g);
       g_inside_energy_barrier := fun x _ _ => Ok (x >! (-! m0_energy_barrier_thickness g));
       g_closest_point := fun _ y z => Ok (nZ 0, y, z) |}.

  (** ** Mesh1D
      geometry.rs 664-671 *)
  Record Layer1D : Type := mkLayer1D {
    l_top : F; l_bottom : F; l_densities : list F; l_concentrations : list F; l_ck : F }.
  (** geometry.rs 113-119 *)
  Record Mesh1DInput : Type := mkMesh1DInput {
    m1i_length_unit : LengthUnit; m1i_layer_thicknesses : list F;
    m1i_densities : list (list F); m1i_cks : list F }.
  (** geometry.rs 121-128 *)
  Record Mesh1D : Type := mkMesh1D {
    m1_layers : list Layer1D; m1_top : F; m1_bottom : F;
    m1_top_energy_barrier_thickness : F; m1_bottom_energy_barrier_thickness : F }.
  (** geometry.rs 674-685 *)
  Definition layer1d_new (top bottom : F) (densities concentrations : list F) (ck : F) : Res Layer1D :=
    let! _ := rassert (top <! bottom) in
    Ok {| l_top := top; l_bottom := bottom; l_densities := densities;
          l_concentrations := concentrations; l_ck := ck |}.
  (** geometry.rs 689-691 *)
  Definition layer_contains (l : Layer1D) (x : F) : bool := (x >! l_top l) && (x <=! l_bottom l).
  (** geometry.rs 692-700 *)
  Definition layer_distance_to (l : Layer1D) (x : F) : F :=
    let distance_to_top := nabs (x -! l_top l) in
    let distance_to_bottom := nabs (x -! l_bottom l) in
    if distance_to_top <! distance_to_bottom then distance_to_top else distance_to_bottom.
  (** geometry.rs 168-179: the loop over thicknesses, densities and ck's,
      zipped (so it stops at the shortest list).  Returns the layers and the
      final [layer_bottom]. *)
  Fixpoint mesh1d_layers (length_unit layer_top layer_bottom : F)
      (rows : list ((F * list F) * F)) : Res (list Layer1D * F) :=
    match rows with
    | [] => Ok ([], layer_bottom)
    | ((layer_thickness, densities), ck) :: rows' =>
        let layer_bottom := layer_bottom +! layer_thickness *! length_unit in
        let! layer := layer1d_new layer_top layer_bottom densities (concentrations_of densities) ck in
        let! (layers, bottom) := mesh1d_layers length_unit layer_bottom layer_bottom rows' in
        Ok (layer :: layers, bottom)
    end.
  (** geometry.rs 134-191.  [densities[0]] inside [all] is evaluated only
      when there is a row, so it does not panic. *)
  Definition mesh1d_new (input : Mesh1DInput) : Res Mesh1D :=
    let! length_unit := length_unit_value (m1i_length_unit input) in
    let densities := map (convert_densities length_unit) (m1i_densities input) in
    let! _ := rassert (forallb (fun row => Nat.eqb (length row) (length (nth 0 densities []))) densities) in
    let! _ := rassert (Nat.eqb (length (m1i_layer_thicknesses input)) (length densities)) in
    let rows := zip (zip (m1i_layer_thicknesses input) densities) (m1i_cks input) in
    let! (layers, layer_bottom) := mesh1d_layers length_unit (nZ 0) (nZ 0) rows in
    let! first := idx layers 0 in
    let! last := idx layers (length layers - 1) in
    Ok {| m1_layers := layers; m1_top := nZ 0; m1_bottom := layer_bottom;
          m1_top_energy_barrier_thickness := barrier_thickness_of (l_densities first);
          m1_bottom_energy_barrier_thickness := barrier_thickness_of (l_densities last) |}.
  (** geometry.rs 248-250 *)
  Definition mesh1d_inside (g : Mesh1D) (x : F) : bool := (x >! m1_top g) && (x <! m1_bottom g).
  (** geometry.rs 192-247: the four getters select a layer in the same way *)
  Definition mesh1d_select (g : Mesh1D) (x : F) : Res Layer1D :=
    if mesh1d_inside g x then
      match find (fun l => layer_contains l x) (m1_layers g) with
      | Some l => Ok l
      | None => Panic ExplicitPanic
      end
    else if x <! m1_top g then idx (m1_layers g) 0
    else idx (m1_layers g) (length (m1_layers g) - 1).
  (** geometry.rs 192-265 *)
  Definition mesh1d_geometry (g : Mesh1D) : Geometry F :=
    {| g_get_densities := fun x _ _ => let! l := mesh1d_select g x in Ok (l_densities l);
       g_get_ck := fun x _ _ => let! l := mesh1d_select g x in Ok (l_ck l);
       g_get_total_density := fun x _ _ => let! l := mesh1d_select g x in Ok (nsum (l_densities l));
       g_get_concentrations := fun x _ _ => let! l := mesh1d_select g x in Ok (l_concentrations l);
       g_inside := fun x _ _ => mesh1d_inside g x;
       g_inside_simulation_boundary := fun x _ _ =>
         (x >! (m1_top g -! nZ 10 *! m1_top_energy_barrier_thickness g))
         && (x <! (m1_bottom g +! nZ 10 *! m1_bottom_energy_barrier_thickness g));
       g_inside_energy_barrier := fun x _ _ => Ok (
         (x >! (m1_top g -! m1_top_energy_barrier_thickness g))
         && (x <! (m1_bottom g +! m1_bottom_energy_barrier_thickness g)));
       g_closest_point := fun x y z =>
         let distance_from_bottom := nabs (x -! m1_bottom g) in
         let distance_from_top := nabs (x -! m1_top g) in
         Ok (if distance_from_bottom <! distance_from_top then (m1_bottom g, y, z) else (m1_top g, y, z)) |}.

  (** ** Triangle2D: geometry.rs 712-801 *)
  Record Triangle2D : Type := mkTriangle2D {
    t_x1 : F; t_x2 : F; t_x3 : F; t_y1 : F; t_y2 : F; t_y3 : F; t_segments : list (F * F * F * F) }.
  (** geometry.rs 725-744 *)
  Definition triangle_new (x1 x2 x3 y1 y2 y3 : F) : Triangle2D :=
    {| t_x1 := x1; t_x2 := x2; t_x3 := x3; t_y1 := y1; t_y2 := y2; t_y3 := y3;
       t_segments := [(x1, y1, x2, y2); (x2, y2, x3, y3); (x3, y3, x1, y1)] |}.
  (** geometry.rs 747-760 *)
  Definition triangle_contains (t : Triangle2D) (x y : F) : bool :=
    let x1 := t_x1 t in let x2 := t_x2 t in let x3 := t_x3 t in
    let y1 := t_y1 t in let y2 := t_y2 t in let y3 := t_y3 t in
    let a := ((y2 -! y3) *! (x -! x3) +! (x3 -! x2) *! (y -! y3))
             /! ((y2 -! y3) *! (x1 -! x3) +! (x3 -! x2) *! (y1 -! y3)) in
    let b := ((y3 -! y1) *! (x -! x3) +! (x1 -! x3) *! (y -! y3))
             /! ((y2 -! y3) *! (x1 -! x3) +! (x3 -! x2) *! (y1 -! y3)) in
    let c := nZ 1 -! a -! b in
    (nZ 0 <=! a) && (a <=! nZ 1) && (nZ 0 <=! b) && (b <=! nZ 1) && (nZ 0 <=! c) && (c <=! nZ 1).
  (** geometry.rs 763-765 *)
  Definition triangle_centroid (t : Triangle2D) : F * F :=
    ((t_x1 t +! t_x2 t +! t_x3 t) /! nZ 3, (t_y1 t +! t_y2 t +! t_y3 t) /! nZ 3).
  (** geometry.rs 772-787: the distance to one segment *)
  Definition segment_distance (segment : F * F * F * F) (x y : F) : Res F :=
    let '(s0, s1, s2, s3) := segment in
    let length_2 := (s2 -! s0) *! (s2 -! s0) +! (s3 -! s1) *! (s3 -! s1) in
    let! _ := rassert (negb (length_2 ==! nZ 0)) in
    let u := ((x -! s0) *! (s2 -! s0) +! (y -! s1) *! (s3 -! s1)) /! length_2 in
    Ok (if u <! nZ 0 then
          nsqrt ((x -! s0) *! (x -! s0) +! (y -! s1) *! (y -! s1))
        else if u >! nZ 1 then
          nsqrt ((x -! s2) *! (x -! s2) +! (y -! s3) *! (y -! s3))
        else
          let x_intersect := s0 +! u *! (s2 -! s0) in
          let y_intersect := s1 +! u *! (s3 -! s1) in
          nsqrt ((x -! x_intersect) *! (x -! x_intersect) +! (y -! y_intersect) *! (y -! y_intersect))).
  (** geometry.rs 768-794 *)
  Fixpoint segments_distance (segments : list (F * F * F * F)) (x y distance_to : F) : Res F :=
    match segments with
    | [] => Ok distance_to
    | s :: ss =>
        let! distance := segment_distance s x y in
        segments_distance ss x y (if distance <! distance_to then distance else distance_to)
    end.
  (** geometry.rs 767-794 *)
  Definition triangle_distance_to (t : Triangle2D) (x y : F) : Res F :=
    segments_distance (t_segments t) x y nmax_value.
  (** geometry.rs 797-800 *)
  Definition triangle_distance_to_center (t : Triangle2D) (x y : F) : F :=
    let centroid := triangle_centroid t in
    nsqrt ((x -! fst centroid) *! (x -! fst centroid) +! (y -! snd centroid) *! (y -! snd centroid)).

  (** ** Mesh2D: geometry.rs 382-662 *)
  Record Cell2D : Type := mkCell2D {
    c_triangle : Triangle2D; c_densities : list F; c_concentrations : list F; c_ck : F }.
  (** Result of [geo::ClosestPoint::closest_point] (external crate geo, used at
      geometry.rs 361, 364, 372, 374, 549, 551). *)
  Inductive Closest : Type := C_SinglePoint (px py : F) | C_Intersection (px py : F) | C_Indeterminate.
  (** A [geo::Polygon]: only its [contains] and [closest_point] queries are
      used (geometry.rs 279-280, 351, 355, 399-400, 545, 616); they are
      external code and enter as arbitrary functions. *)
  Record Polygon : Type := mkPolygon {
    poly_contains : F -> F -> bool; poly_closest_point : F -> F -> Closest }.
  (** geometry.rs 395-402 *)
  Record Mesh2D : Type := mkMesh2D {
    m2_mesh : list Cell2D; m2_boundary : Polygon; m2_simulation_boundary : Polygon;
    m2_energy_barrier_thickness : F }.
  (** geometry.rs 406-420: loop state (min_distance, index), cells numbered
      from [cell_index] *)
  Fixpoint mesh2d_nearest_loop (cells : list Cell2D) (cell_index : nat) (x y min_distance : F) (index : nat) : Res nat :=
    match cells with
    | [] => Ok index
    | cell :: cells' =>
        let! distance_to := triangle_distance_to (c_triangle cell) x y in
        if distance_to <! min_distance then mesh2d_nearest_loop cells' (S cell_index) x y distance_to cell_index
        else mesh2d_nearest_loop cells' (S cell_index) x y min_distance index
    end.
  (** geometry.rs 405-420 *)
  Definition mesh2d_nearest_to (g : Mesh2D) (x y : F) : Res Cell2D :=
    let! index := mesh2d_nearest_loop (m2_mesh g) 0 x y nmax_value 0 in
    idx (m2_mesh g) index.
  (** geometry.rs 559-612: the four getters select a cell in the same way *)
  Definition mesh2d_select (g : Mesh2D) (x y : F) : Res Cell2D :=
    if poly_contains (m2_boundary g) x y then
      match find (fun c => triangle_contains (c_triangle c) x y) (m2_mesh g) with
      | Some c => Ok c
      | None => Panic ExplicitPanic
      end
    else mesh2d_nearest_to g x y.
  (** geometry.rs 371-379, 548-556 *)
  Definition polygon_closest (b : Polygon) (x y z : F) : Res (F * F * F) :=
    match poly_closest_point b x y with
    | C_SinglePoint px py => Ok (px, py, z)
    | C_Intersection px py => Ok (px, py, z)
    | C_Indeterminate => Panic ExplicitPanic
    end.
  (** geometry.rs 534-618 *)
  Definition mesh2d_geometry (g : Mesh2D) : Geometry F :=
    {| g_get_densities := fun x y _ => let! c := mesh2d_select g x y in Ok (c_densities c);
       g_get_ck := fun x y _ => let! c := mesh2d_select g x y in Ok (c_ck c);
       g_get_total_density := fun x y _ => let! c := mesh2d_select g x y in Ok (nsum (c_densities c));
       g_get_concentrations := fun x y _ => let! c := mesh2d_select g x y in Ok (c_concentrations c);
       g_inside := fun x y _ => poly_contains (m2_boundary g) x y;
       g_inside_simulation_boundary := fun x y _ => poly_contains (m2_simulation_boundary g) x y;
       g_inside_energy_barrier := fun x y _ =>
         if poly_contains (m2_boundary g) x y then Ok true
         else
           let! nearest_cell := mesh2d_nearest_to g x y in
           let! distance := triangle_distance_to (c_triangle nearest_cell) x y in
           Ok (distance <! m2_energy_barrier_thickness g);
       g_closest_point := fun x y z => polygon_closest (m2_boundary g) x y z |}.
  (** geometry.rs 382-393 *)
  Record Mesh2DInput : Type := mkMesh2DInput {
    m2i_length_unit : LengthUnit; m2i_triangles : list (nat * nat * nat); m2i_points : list (F * F);
    m2i_boundary : list nat; m2i_simulation_boundary_points : list (F * F);
    m2i_densities : list (list F); m2i_cks : list F; m2i_energy_barrier_thickness : F }.
  (** geometry.rs 469-490 *)
  Definition mesh2d_cell (length_unit : F) (points : list (F * F)) (row : ((nat * nat * nat) * list F) * F) : Res Cell2D :=
    let '(((i1, i2, i3), densities), ck) := row in
    let! p1 := idx points i1 in
    let! p2 := idx points i2 in
    let! p3 := idx points i3 in
    Ok {| c_triangle := triangle_new (fst p1 *! length_unit) (fst p2 *! length_unit) (fst p3 *! length_unit)
                                     (snd p1 *! length_unit) (snd p2 *! length_unit) (snd p3 *! length_unit);
          c_densities := densities; c_concentrations := concentrations_of densities; c_ck := ck |}.
  (** geometry.rs 428-532; [mk_polygon] is geo's [Polygon::new(LineString::from(points), vec![])] *)
  Definition mesh2d_new (mk_polygon : list (F * F) -> Polygon) (input : Mesh2DInput) : Res Mesh2D :=
    let! length_unit := length_unit_value (m2i_length_unit input) in
    let densities := map (convert_densities length_unit) (m2i_densities input) in
    let! _ := rassert (forallb (fun row => Nat.eqb (length row) (length (nth 0 densities []))) densities) in
    let! _ := rassert (Nat.eqb (length (m2i_triangles input)) (length densities)) in
    let! cells := mapM (mesh2d_cell length_unit (m2i_points input))
                       (zip (zip (m2i_triangles input) densities) (m2i_cks input)) in
    let! boundary_points := mapM (fun i => let! p := idx (m2i_points input) i in
                                           Ok (fst p *! length_unit, snd p *! length_unit)) (m2i_boundary input) in
    Ok {| m2_mesh := cells;
          m2_boundary := mk_polygon boundary_points;
          m2_simulation_boundary := mk_polygon (map (fun p => (fst p *! length_unit, snd p *! length_unit))
                                                    (m2i_simulation_boundary_points input));
          m2_energy_barrier_thickness := m2i_energy_barrier_thickness input *! length_unit |}.

  (** ** HomogeneousMesh2D: geometry.rs 268-380 *)
  Record HomogeneousMesh2D : Type := mkHM2 {
    h2_boundary : Polygon; h2_simulation_boundary : Polygon; h2_energy_barrier_thickness : F;
    h2_densities : list F; h2_ck : F; h2_concentrations : list F }.
  Record HomogeneousMesh2DInput : Type := mkHM2Input {
    h2i_length_unit : LengthUnit; h2i_points : list (F * F); h2i_simulation_boundary_points : list (F * F);
    h2i_densities : list F; h2i_ck : F }.
  (** geometry.rs 291-332 *)
  Definition homogeneous2d_new (mk_polygon : list (F * F) -> Polygon) (input : HomogeneousMesh2DInput) : Res HomogeneousMesh2D :=
    let! length_unit := length_unit_value (h2i_length_unit input) in
    let scale := map (fun p => (fst p *! length_unit, snd p *! length_unit)) in
    let densities := convert_densities length_unit (h2i_densities input) in
    Ok {| h2_boundary := mk_polygon (scale (h2i_points input));
          h2_simulation_boundary := mk_polygon (scale (h2i_simulation_boundary_points input));
          h2_energy_barrier_thickness := barrier_thickness_of densities;
          h2_densities := densities; h2_ck := h2i_ck input;
          h2_concentrations := concentrations_of densities |}.
  (** geometry.rs 334-379 *)
  Definition homogeneous2d_geometry (g : HomogeneousMesh2D) : Geometry F :=
    {| g_get_densities := fun _ _ _ => Ok (h2_densities g);
       g_get_ck := fun _ _ _ => Ok (h2_ck g);
       g_get_total_density := fun _ _ _ => Ok (nsum (h2_densities g));
       g_get_concentrations := fun _ _ _ => Ok (h2_concentrations g);
       g_inside := fun x y _ => poly_contains (h2_boundary g) x y;
       g_inside_simulation_boundary := fun x y _ => poly_contains (h2_simulation_boundary g) x y;
       g_inside_energy_barrier := fun x y _ =>
         if poly_contains (h2_boundary g) x y then Ok true
         else match poly_closest_point (h2_boundary g) x y with
              | C_SinglePoint px py =>
                  let distance := nsqrt (npowf (x -! px) (nZ 2) +! npowf (y -! py) (nZ 2)) in
                  Ok (distance <! h2_energy_barrier_thickness g)
              | C_Intersection _ _ => Ok true
              | C_Indeterminate => Panic ExplicitPanic
              end;
       g_closest_point := fun x y z => polygon_closest (h2_boundary g) x y z |}.

  (** ** Sphere: sphere.rs 31-123 *)
  Record SphereInput : Type := mkSphereInput {
    si_length_unit : LengthUnit; si_radius : F; si_densities : list F; si_ck : F }.
  Record Sphere : Type := mkSphere {
    s_densities : list F; s_concentrations : list F; s_radius : F; s_ck : F; s_energy_barrier_thickness : F }.
  (** sphere.rs 56-86 *)
  Definition sphere_new (input : SphereInput) : Res Sphere :=
    let! length_unit := length_unit_value (si_length_unit input) in
    let densities := convert_densities length_unit (si_densities input) in
    Ok {| s_densities := densities; s_concentrations := concentrations_of densities;
          s_radius := si_radius input *! length_unit; s_ck := si_ck input;
          s_energy_barrier_thickness := barrier_thickness_of densities |}.
  (** sphere.rs 101, 106, 111, 116 *)
  Definition sphere_r (x y z : F) : F := nsqrt (npowi x 2 +! npowi y 2 +! npowi z 2).
  (** sphere.rs 88-122 *)
  Definition sphere_geometry (g : Sphere) : Geometry F :=
    {| g_get_densities := fun _ _ _ => Ok (s_densities g);
       g_get_ck := fun _ _ _ => Ok (s_ck g);
       g_get_total_density := fun _ _ _ => Ok (nsum (s_densities g));
       g_get_concentrations := fun _ _ _ => Ok (s_concentrations g);
       g_inside := fun x y z => sphere_r x y z <! s_radius g;
       g_inside_simulation_boundary := fun x y z =>
         sphere_r x y z <! (nZ 10 *! s_energy_barrier_thickness g +! s_radius g);
       g_inside_energy_barrier := fun x y z => Ok (
         sphere_r x y z <! (s_energy_barrier_thickness g +! s_radius g));
       g_closest_point := fun x y z =>
         let r := sphere_r x y z in
         let R := s_radius g in
         let ux := x /! r in
         let uy := y /! r in
         let uz := z /! r in
         Ok (ux *! R, uy *! R, uz *! R) |}.

  (** ** ParryBall: parry.rs 35-127.  The queries on [parry3d_f64::shape::Ball]
      are external; they enter as arbitrary functions. *)
  Record BallQueries : Type := mkBallQueries {
    bq_contains : F -> F -> F -> bool;
    bq_distance_solid : F -> F -> F -> F;
    bq_project : F -> F -> F -> F * F * F }.
  Record ParryBall : Type := mkParryBall {
    pb_densities : list F; pb_concentrations : list F; pb_radius : F; pb_ck : F;
    pb_energy_barrier_thickness : F; pb_ball : BallQueries }.
  (** parry.rs 61-92 *)
  Definition parryball_new (mk_ball : F -> BallQueries) (input : SphereInput) : Res ParryBall :=
    let! length_unit := length_unit_value (si_length_unit input) in
    let densities := convert_densities length_unit (si_densities input) in
    let radius := si_radius input *! length_unit in
    Ok {| pb_densities := densities; pb_concentrations := concentrations_of densities;
          pb_radius := radius; pb_ck := si_ck input;
          pb_energy_barrier_thickness := barrier_thickness_of densities; pb_ball := mk_ball radius |}.
  (** parry.rs 94-126 *)
  Definition parryball_geometry (g : ParryBall) : Geometry F :=
    {| g_get_densities := fun _ _ _ => Ok (pb_densities g);
       g_get_ck := fun _ _ _ => Ok (pb_ck g);
       g_get_total_density := fun _ _ _ => Ok (nsum (pb_densities g));
       g_get_concentrations := fun _ _ _ => Ok (pb_concentrations g);
       g_inside := fun x y z => bq_contains (pb_ball g) x y z;
       g_inside_simulation_boundary := fun x y z =>
         bq_distance_solid (pb_ball g) x y z <! (nZ 10 *! pb_energy_barrier_thickness g);
       g_inside_energy_barrier := fun x y z => Ok (
         bq_distance_solid (pb_ball g) x y z <! pb_energy_barrier_thickness g);
       g_closest_point := fun x y z => Ok (bq_project (pb_ball g) x y z) |}.

  (** ** ParryTriMesh: parry.rs 158-294.  The mesh and bounding-box queries of
      parry3d are external; they enter as arbitrary functions. *)
  Record TriMeshQueries : Type := mkTriMeshQueries {
    tq_aabb_contains : F -> F -> F -> bool;
    tq_ray_hits_backface : F -> F -> F -> option bool;   (* cast ray along +x; Some(is_backface) *)
    tq_aabb_distance_solid : F -> F -> F -> F;
    tq_distance_solid : F -> F -> F -> F;
    tq_project : F -> F -> F -> F * F * F }.
  (** parry.rs 167-175; the mesh and its bounding box are represented by their queries *)
  Record ParryTriMesh : Type := mkParryTriMesh {
    pt_densities : list F; pt_concentrations : list F; pt_ck : F;
    pt_energy_barrier_thickness : F; pt_mesh : TriMeshQueries }.
  (** parry.rs 158-165 *)
  Record ParryTriMeshInput : Type := mkParryTriMeshInput {
    pti_length_unit : LengthUnit; pti_densities : list F; pti_ck : F;
    pti_vertices : list (F * F * F); pti_indices : list (nat * nat * nat) }.
  (** parry.rs 185-218; [mk_mesh] is parry3d's TriMesh::new and aabb *)
  Definition parrytrimesh_new (mk_mesh : list (F * F * F) -> list (nat * nat * nat) -> TriMeshQueries)
      (input : ParryTriMeshInput) : Res ParryTriMesh :=
    let! length_unit := length_unit_value (pti_length_unit input) in
    let densities := convert_densities length_unit (pti_densities input) in
    let points := map (fun p => let '(x, y, z) := p in (x *! length_unit, y *! length_unit, z *! length_unit))
                      (pti_vertices input) in
    Ok {| pt_densities := densities; pt_concentrations := concentrations_of densities;
          pt_ck := pti_ck input; pt_energy_barrier_thickness := barrier_thickness_of densities;
          pt_mesh := mk_mesh points (pti_indices input) |}.
  (** parry.rs 268-294 *)
  Definition inside_trimesh (q : TriMeshQueries) (x y z : F) : bool :=
    if negb (tq_aabb_contains q x y z) then false
    else match tq_ray_hits_backface q x y z with
         | Some b => b
         | None => false
         end.
  (** parry.rs 220-265 *)
  Definition parrytrimesh_geometry (g : ParryTriMesh) : Geometry F :=
    {| g_get_densities := fun _ _ _ => Ok (pt_densities g);
       g_get_ck := fun _ _ _ => Ok (pt_ck g);
       g_get_total_density := fun _ _ _ => Ok (nsum (pt_densities g));
       g_get_concentrations := fun _ _ _ => Ok (pt_concentrations g);
       g_inside := fun x y z => inside_trimesh (pt_mesh g) x y z;
       g_inside_simulation_boundary := fun x y z =>
         if inside_trimesh (pt_mesh g) x y z then true
         else tq_aabb_distance_solid (pt_mesh g) x y z <! (nZ 10 *! pt_energy_barrier_thickness g);
       g_inside_energy_barrier := fun x y z =>
         if inside_trimesh (pt_mesh g) x y z then Ok true
         else Ok (tq_distance_solid (pt_mesh g) x y z <! pt_energy_barrier_thickness g);
       g_closest_point := fun x y z => Ok (tq_project (pt_mesh g) x y z) |}.
End Geometry.
Arguments LengthUnit F : clear implicits.
Arguments Mesh0DInput F : clear implicits.
Arguments Mesh0D F : clear implicits.
Arguments Layer1D F : clear implicits.
Arguments Mesh1DInput F : clear implicits.
Arguments Mesh1D F : clear implicits.
Arguments Triangle2D F : clear implicits.
Arguments Cell2D F : clear implicits.
Arguments Closest F : clear implicits.
Arguments Polygon F : clear implicits.
Arguments Mesh2D F : clear implicits.
Arguments Mesh2DInput F : clear implicits.
Arguments HomogeneousMesh2D F : clear implicits.
Arguments HomogeneousMesh2DInput F : clear implicits.
Arguments SphereInput F : clear implicits.
Arguments Sphere F : clear implicits.
Arguments BallQueries F : clear implicits.
Arguments ParryBall F : clear implicits.
Arguments TriMeshQueries F : clear implicits.
Arguments ParryTriMesh F : clear implicits.
Arguments ParryTriMeshInput F : clear implicits.
