(** * ToyMesh.v - C110: a rectangle of 10 by 50 angstrom in two triangles *)
From Coq Require Import ZArith List Bool Reals Lra Floats.SpecFloat.
From Verif Require Import Num NumR NumSF ModelTypes ModelConsts ModelParticle ModelGeometry ModelMaterial ModelBca
  Spec ProofsBase ProofsBca.
Import ListNotations.
(** ** the input, for any number type *)
Section Rectangle.
  Context {F : Type} {NF : Num F}.
  Definition rectangle_input : Mesh2DInput F := {|
    m2i_length_unit := LU_ANGSTROM;
    m2i_triangles := [(0, 1, 2); (0, 2, 3)]%nat;
    m2i_points := [(nZ 0, nZ 0); (nZ 10, nZ 0); (nZ 10, nZ 50); (nZ 0, nZ 50)];
    m2i_boundary := [0; 1; 2; 3]%nat;
    m2i_simulation_boundary_points := [(nZ (-20), nZ (-20)); (nZ 30, nZ (-20)); (nZ 30, nZ 70); (nZ (-20), nZ 70)];
    m2i_densities := [[nlit 85 (-3)]; [nlit 85 (-3)]]; m2i_cks := [nZ 1; nZ 1];
    m2i_energy_barrier_thickness := nZ 2 |}.
  (** its outline and its diagonal's point 7 angstrom from the left *)
  Definition rectangle_corners : list (F * F) :=
    map (fun p => ((fst p *! cANGSTROM), (snd p *! cANGSTROM)))%num [(nZ 0, nZ 0); (nZ 10, nZ 0); (nZ 10, nZ 50); (nZ 0, nZ 50)].
  Definition diagonal_x : F := (nZ 7 *! cANGSTROM)%num.
  Definition diagonal_y : F := (nZ 35 *! cANGSTROM)%num.
  (** helium of 100 eV starting there *)
  Definition diagonal_ion : ParticleInput F := {|
    pi_m := (nZ 4 *! cAMU)%num; pi_Z := nZ 2; pi_E := (nZ 100 *! cEV)%num; pi_Ec := (nZ 3 *! cEV)%num; pi_Es := nZ 0;
    pi_x := diagonal_x; pi_y := diagonal_y; pi_z := nZ 0; pi_ux := nlit 6 (-1); pi_uy := nlit 8 (-1); pi_uz := nZ 0;
    pi_interaction_index := 0%nat; pi_weight := nZ 1; pi_tag := 0 |}.
  (** exact polygon code for rectangles given by four corners, as above *)
  Definition box_polygon (corners : list (F * F)) : Polygon F :=
    let a := nth 0 corners (nZ 0, nZ 0) in
    let b := nth 2 corners (nZ 0, nZ 0) in
    {| poly_contains := fun x y => (fst a <! x) && (x <! fst b) && (snd a <! y) && (y <! snd b);
       poly_closest_point := fun x y => C_Indeterminate |}%num.
  (** a particle at a point where the density cannot be looked up *)
  Lemma no_density build mat options fuel ion rng n k : active ion ->
    g_get_densities (mat_geometry mat) (vx (p_pos ion)) (vy (p_pos ion)) (vz (p_pos ion)) = Panic k ->
    single_ion_bca build mat options (S fuel) ion rng n = Panic k.
  Proof.
    intros (H1 & H2) H. unfold single_ion_bca. cbn [stack_loop bca_loop]. rewrite H1, H2. cbn [negb andb].
    unfold bca_step, determine_mfp_phi_impact_parameter, mat_mfp, total_number_density. unfold mbind, mlift. rewrite H. reflexivity.
  Qed.
End Rectangle.
Section Double.
  Context (lm : Libm).
  #[local] Instance NS : Num spec_float := NumSF lm.
  Lemma rectangle_mesh mk_polygon : exists mesh, mesh2d_new mk_polygon rectangle_input = Ok mesh /\
    m2_boundary mesh = mk_polygon rectangle_corners /\
    forall c, In c (m2_mesh mesh) -> triangle_contains (c_triangle c) diagonal_x diagonal_y = false.
  Proof.
    unfold mesh2d_new. eexists. split; [reflexivity|]. split; [reflexivity|].
    cbn [m2_mesh]. intros c [<-|[<-|[]]]; vm_compute; reflexivity.
  Qed.
  Lemma diagonal_inside :
    let '(w, h) := (nZ 10 *! cANGSTROM, nZ 50 *! cANGSTROM)%num in
    SFltb (nZ 0) diagonal_x = true /\ SFltb diagonal_x w = true /\ SFltb (nZ 0) diagonal_y = true /\ SFltb diagonal_y h = true.
  Proof. vm_compute. auto. Qed.
  Lemma diagonal_in_box : poly_contains (box_polygon rectangle_corners) diagonal_x diagonal_y = true.
  Proof. vm_compute. reflexivity. Qed.
  Lemma diagonal_accepted options : exists ion, from_input diagonal_ion options = Ok ion /\ active ion /\
    p_pos ion = mkV diagonal_x diagonal_y (nZ 0).
  Proof.
    unfold from_input.
    match goal with |- context [rassert ?a] => assert (E : a = true) by (vm_compute; reflexivity); rewrite E; clear E; cbn [rassert bind] end.
    match goal with |- context [rassert ?a] => assert (E : a = true) by (vm_compute; reflexivity); rewrite E; clear E; cbn [rassert bind] end.
    eexists. split; [reflexivity|]. split; [split; reflexivity|reflexivity].
  Qed.
End Double.
