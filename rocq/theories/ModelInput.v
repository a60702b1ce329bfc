(** * ModelInput.v - input.rs.
    This file starts from the parsed record; ModelToml.v reads it from the
    document.  HDF5 file reading is an arbitrary result. *)
From Coq Require Import ZArith List Bool.
From Verif Require Import Num ModelTypes ModelConsts ModelParticle ModelGeometry ModelMaterial.
Import ListNotations.
Open Scope Z_scope.
Open Scope num_scope.

Section Input.
  Context {F : Type} {NF : Num F}.

  (** ** Options::default_options.  input.rs 168-212 gives the defaults. *)
  Definition default_interaction_potential : list (list (InteractionPotential F)) := [[KR_C]].   (* input.rs 200-202 *)
  Definition default_scattering_integral : list (list ScatteringIntegral) := [[MENDENHALL_WELLER]]. (* input.rs 205-207 *)
  Definition default_rootfinder : list (list (Rootfinder F)) := [[DEFAULTNEWTON]].               (* input.rs 210-212 *)
  (** input.rs 256-279: every build without the feature "distributions" *)
  Definition default_options (track_recoils : bool) : Options F :=
    {| o_track_trajectories := false; o_track_recoils := track_recoils;
       o_track_recoil_trajectories := false; o_write_buffer_size := Z.to_nat 8192;
       o_weak_collision_order := 0%nat; o_suppress_deep_recoils := false;
       o_high_energy_free_flight_paths := false;
       o_electronic_stopping_mode := LOW_ENERGY_NONLOCAL; o_mean_free_path_model := LIQUID;
       o_interaction_potential := default_interaction_potential;
       o_scattering_integral := default_scattering_integral;
       o_root_finder := default_rootfinder;
       o_num_threads := 1%nat; o_num_chunks := 1%nat; o_use_hdf5 := false;
       o_track_displacements := false; o_track_energy_losses := false |}.
  (** input.rs 337-375: the build with the feature "distributions" (the
      histogram ranges, all zero, are not part of this record) *)
  Definition default_options_distributions (track_recoils : bool) : Options F :=
    {| o_track_trajectories := track_recoils; o_track_recoils := false;
       o_track_recoil_trajectories := false; o_write_buffer_size := Z.to_nat 8192;
       o_weak_collision_order := 0%nat; o_suppress_deep_recoils := false;
       o_high_energy_free_flight_paths := false;
       o_electronic_stopping_mode := LOW_ENERGY_NONLOCAL; o_mean_free_path_model := LIQUID;
       o_interaction_potential := default_interaction_potential;
       o_scattering_integral := default_scattering_integral;
       o_root_finder := default_rootfinder;
       o_num_threads := 1%nat; o_num_chunks := 1%nat; o_use_hdf5 := false;
       o_track_displacements := false; o_track_energy_losses := false |}.

  (** ** The parsed input file *)
  (** unit strings (input.rs 494-527) are those of ModelGeometry.v and ModelMaterial.v *)
  (** enums.rs 17-21 *)
  Inductive Dist : Type := UNIFORM (min max : F) | NORMAL (mean std : F) | POINT (v : F).
  (** particle.rs 5-43 *)
  Record ParticleParameters : Type := mkParticleParameters {
    pp_length_unit : LengthUnit F; pp_energy_unit : EnergyUnit F; pp_mass_unit : MassUnit F;
    pp_N : list nat; pp_m : list F; pp_Z : list F; pp_E : list Dist; pp_Ec : list F; pp_Es : list F;
    pp_pos : list (Dist * Dist * Dist); pp_dir : list (Dist * Dist * Dist);
    pp_interaction_index : list nat }.
  (** input.rs 18-52, 54-87, 89-122, 124-157: [geometry] is what T::new makes of the geometry section. *)
  Record InputData : Type := mkInput {
    in_options : Options F; in_particle : ParticleParameters;
    in_material : MaterialParameters F; in_geometry : Res (Geometry F) }.
  (** input.rs 442-448, 530, 612-615: Cargo features that input() looks at; with hdf5_input, the outcome of
      reading the named file. *)
  Record Features : Type := mkFeatures {
    ft_cpr : bool; ft_hdf5 : option (Res (list (ParticleInput F))) }.

  (** ** Checks.  input.rs 398-489 *)
  (** [std::cmp::max] of a non-empty Vec<usize>, then the comparison;
      [max().unwrap()] panics on an empty one.  input.rs 484-489 *)
  Definition max_below (l : list nat) (n : nat) : Res unit :=
    match l with
    | [] => Panic UnwrapNone
    | i :: l' => rassert (Nat.ltb (fold_left Nat.max l' i) n)
    end.
  (** input.rs 407-409, 479-481 *)
  Definition expand_indices (indices : list nat) (n : nat) : list nat :=
    if Nat.leb (length indices) 1 then repeat 0%nat n else indices.
  (** input.rs 411-413: [material.Ed[0]] panics when Ed is empty *)
  Definition expand_Ed (Ed : list F) (n : nat) : Res (list F) :=
    if Nat.leb (length Ed) 1 then let! d := idx Ed 0 in Ok (repeat d n) else Ok Ed.
  (** input.rs 416-421 *)
  Definition is_interpolated (m : ElectronicStoppingMode) : bool :=
    match m with INTERPOLATED => true | _ => false end.
  Definition check_free_flight (o : Options F) : Res unit :=
    if o_high_energy_free_flight_paths o then
      let! _ := rassert (is_interpolated (o_electronic_stopping_mode o)) in
      rassert (Nat.eqb (o_weak_collision_order o) 0)
    else Ok tt.
  (** input.rs 423-426 *)
  Definition check_gaseous (o : Options F) : Res unit :=
    match o_mean_free_path_model o with
    | GASEOUS => rassert (Nat.eqb (o_weak_collision_order o) 0)
    | _ => Ok tt
    end.
  (** input.rs 428-437 *)
  Definition check_square_row (o : Options F) (i : nat) : Res unit :=
    let! r := idx (o_interaction_potential o) i in
    let! _ := rassert (Nat.eqb (length (o_interaction_potential o)) (length r)) in
    let! s := idx (o_scattering_integral o) i in
    let! _ := rassert (Nat.eqb (length (o_scattering_integral o)) (length s)) in
    let! f := idx (o_root_finder o) i in
    rassert (Nat.eqb (length (o_root_finder o)) (length f)).
  Definition check_square (o : Options F) : Res unit :=
    let! _ := mapM (check_square_row o) (seq 0 (length (o_interaction_potential o))) in Ok tt.
  (** input.rs 442-449 *)
  Definition rootfinder_in_build (cpr : bool) (rf : Rootfinder F) : bool :=
    cpr || match rf with POLYNOMIAL _ | CPR _ _ _ _ _ _ _ _ => false | _ => true end.
  (** input.rs 451-464 *)
  Definition combination_allowed (ip : InteractionPotential F) (rf : Rootfinder F) : bool :=
    match ip, rf with
    | FOUR_EIGHT _ _, POLYNOMIAL _ => true
    | LENNARD_JONES_12_6 _ _, CPR _ _ _ _ _ _ _ _ => true
    | LENNARD_JONES_12_6 _ _, POLYNOMIAL _ => true
    | LENNARD_JONES_12_6 _ _, _ => false
    | LENNARD_JONES_65_6 _ _, CPR _ _ _ _ _ _ _ _ => true
    | LENNARD_JONES_65_6 _ _, POLYNOMIAL _ => true
    | LENNARD_JONES_65_6 _ _, _ => false
    | MORSE _ _ _, CPR _ _ _ _ _ _ _ _ => true
    | MORSE _ _ _, _ => false
    | _, POLYNOMIAL _ => false
    | _, _ => true
    end.
  Definition check_combination (cpr : bool) (c : InteractionPotential F * ScatteringIntegral * Rootfinder F) : Res unit :=
    let '(ip, _, rf) := c in
    let! _ := rassert (rootfinder_in_build cpr rf) in
    rassert (combination_allowed ip rf).
  Definition check_combination_row (cpr : bool)
      (r : list (InteractionPotential F) * list ScatteringIntegral * list (Rootfinder F)) : Res unit :=
    let '(ips, sis, rfs) := r in
    let! _ := mapM (check_combination cpr) (zip (zip ips sis) rfs) in Ok tt.
  (** input.rs 439-467 *)
  Definition check_combinations (cpr : bool) (o : Options F) : Res unit :=
    let! _ := mapM (check_combination_row cpr)
                (zip (zip (o_interaction_potential o) (o_scattering_integral o)) (o_root_finder o)) in
    Ok tt.
  (** assert_eq! on lengths, input.rs 470-477 *)
  Definition check_particle_lengths (p : ParticleParameters) : Res unit :=
    let n := length (pp_Z p) in
    let! _ := rassert (Nat.eqb n (length (pp_m p))) in
    let! _ := rassert (Nat.eqb n (length (pp_E p))) in
    let! _ := rassert (Nat.eqb n (length (pp_pos p))) in
    rassert (Nat.eqb n (length (pp_dir p))).

  (** ** Particles *)
  (** One draw from a distribution: [Normal::new(..).unwrap()] fails when the
      crate rejects the standard deviation ([normal_ok]), [Uniform::from]
      panics unless min < max.  A random number r of the stream stands for a
      standard normal deviate resp. a number in [0,1).  input.rs 565-569 etc. *)
  Definition draw (normal_ok : F -> bool) (d : Dist) : M F F :=
    match d with
    | POINT v => mret v
    | NORMAL mean std =>
        do! _ := mlift (if normal_ok std then Ok tt else Panic UnwrapErr) in
        do! r := mrandom in mret (mean +! std *! r)
    | UNIFORM min max =>
        do! _ := mlift (rassert (min <! max)) in
        do! r := mrandom in mret (min +! (max -! min) *! r)
    end.
  Definition draw_scaled (normal_ok : F -> bool) (unit_ : F) (d : Dist) : M F F :=
    do! v := draw normal_ok d in mret (v *! unit_).
  (** input.rs 586-600 (hdf5_input build: a POINT component is not multiplied
      by the length unit) and 655-669 (default build: it is); a POINT x
      component must not be exactly 1. *)
  Definition draw_direction (hdf5_build : bool) (normal_ok : F -> bool) (length_unit : F) (is_x : bool) (d : Dist) : M F F :=
    match d with
    | POINT v =>
        do! _ := mlift (if is_x then rassert (negb (v ==! nZ 1)) else Ok tt) in
        mret (if hdf5_build then v else v *! length_unit)
    | _ => draw_scaled normal_ok length_unit d
    end.
  (** input.rs 558-606 / 628-675: one particle of entry [i] *)
  Definition make_particle (hdf5_build : bool) (normal_ok : F -> bool) (length_unit energy_unit mass_unit : F)
      (m Z : F) (E : Dist) (Ec Es : F) (interaction_index : nat) (pos dir : Dist * Dist * Dist)
      : M F (ParticleInput F) :=
    let '(x, y, z) := pos in
    let '(cosx, cosy, cosz) := dir in
    do! e := draw_scaled normal_ok energy_unit E in
    do! x := draw_scaled normal_ok length_unit x in
    do! y := draw_scaled normal_ok length_unit y in
    do! z := draw_scaled normal_ok length_unit z in
    do! ux := draw_direction hdf5_build normal_ok length_unit true cosx in
    do! uy := draw_direction hdf5_build normal_ok length_unit false cosy in
    do! uz := draw_direction hdf5_build normal_ok length_unit false cosz in
    mret {| pi_m := m *! mass_unit; pi_Z := Z; pi_E := e; pi_Ec := Ec *! energy_unit; pi_Es := Es *! energy_unit;
            pi_x := x; pi_y := y; pi_z := z; pi_ux := ux; pi_uy := uy; pi_uz := uz;
            pi_interaction_index := interaction_index; pi_weight := nZ 1; pi_tag := 0 |}.
  Fixpoint mrepeat {A} (n : nat) (m : M F A) : M F (list A) :=
    match n with
    | O => mret []
    | S n' => do! a := m in do! l := mrepeat n' m in mret (a :: l)
    end.
  (** input.rs 546-557 / 619-627: entry [i]; every access panics when the
      array is too short *)
  Definition make_entry (hdf5_build : bool) (normal_ok : F -> bool) (length_unit energy_unit mass_unit : F)
      (p : ParticleParameters) (interaction_index : list nat) (i : nat) : M F (list (ParticleInput F)) :=
    do! N := mlift (idx (pp_N p) i) in
    do! m := mlift (idx (pp_m p) i) in
    do! Z := mlift (idx (pp_Z p) i) in
    do! E := mlift (idx (pp_E p) i) in
    do! Ec := mlift (idx (pp_Ec p) i) in
    do! Es := mlift (idx (pp_Es p) i) in
    do! ii := mlift (idx interaction_index i) in
    do! pos := mlift (idx (pp_pos p) i) in
    do! dir := mlift (idx (pp_dir p) i) in
    mrepeat N (make_particle hdf5_build normal_ok length_unit energy_unit mass_unit m Z E Ec Es ii pos dir).
  Fixpoint make_entries (hdf5_build : bool) (normal_ok : F -> bool) (length_unit energy_unit mass_unit : F)
      (p : ParticleParameters) (interaction_index : list nat) (is : list nat) : M F (list (ParticleInput F)) :=
    match is with
    | [] => mret []
    | i :: is' =>
        do! l := make_entry hdf5_build normal_ok length_unit energy_unit mass_unit p interaction_index i in
        do! l' := make_entries hdf5_build normal_ok length_unit energy_unit mass_unit p interaction_index is' in
        mret (l ++ l')
    end.
  Definition is_some {A} (o : option A) : bool := match o with Some _ => true | None => false end.
  Definition make_particles (ft : Features) (normal_ok : F -> bool) (o : Options F)
      (length_unit energy_unit mass_unit : F) (p : ParticleParameters) (interaction_index : list nat)
      : M F (list (ParticleInput F)) :=
    let toml_particles :=
      make_entries (is_some (ft_hdf5 ft)) normal_ok length_unit energy_unit mass_unit p interaction_index
                   (seq 0 (length (pp_Z p))) in
    if o_use_hdf5 o then
      match ft_hdf5 ft with
      | None => mlift (Panic ExplicitPanic)
      | Some file => mlift file
      end
    else toml_particles.

  (** input.rs 377-685 *)
  Definition set_mat_arrays (mat : Material F) (Ed : list F) (interaction_index : list nat) : Material F :=
    {| mat_m := mat_m mat; mat_Z := mat_Z mat; mat_Eb := mat_Eb mat; mat_Es := mat_Es mat; mat_Ec := mat_Ec mat;
       mat_Ed := Ed; mat_interaction_index := interaction_index; mat_geometry := mat_geometry mat;
       mat_surface_binding_model := mat_surface_binding_model mat;
       mat_bulk_binding_model := mat_bulk_binding_model mat |}.
  Definition input (ft : Features) (normal_ok : F -> bool) (inp : InputData)
      : M F (list (ParticleInput F) * Material F * Options F * OutputUnits F) :=
    let o := in_options inp in
    let pp := in_particle inp in
    do! mat := mlift (material_new (in_material inp) (in_geometry inp)) in
    do! _ := mlift (rassert (Nat.ltb 0 (o_num_threads o))) in
    do! _ := mlift (rassert (Nat.ltb 0 (o_num_chunks o))) in
    do! _ := mlift (rassert (Nat.eqb (length (mat_m mat)) (length (mat_Z mat)))) in
    do! _ := mlift (rassert (Nat.eqb (length (mat_m mat)) (length (mat_Eb mat)))) in
    do! _ := mlift (rassert (Nat.eqb (length (mat_m mat)) (length (mat_Es mat)))) in
    let mat_indices := expand_indices (mat_interaction_index mat) (length (mat_m mat)) in
    do! Ed := mlift (expand_Ed (mat_Ed mat) (length (mat_m mat))) in
    let mat := set_mat_arrays mat Ed mat_indices in
    do! _ := mlift (check_free_flight o) in
    do! _ := mlift (check_gaseous o) in
    do! _ := mlift (check_square o) in
    do! _ := mlift (check_combinations (ft_cpr ft) o) in
    do! _ := mlift (check_particle_lengths pp) in
    let particle_indices := expand_indices (pp_interaction_index pp) (length (pp_Z pp)) in
    do! _ := mlift (max_below (mat_interaction_index mat) (length (o_interaction_potential o))) in
    do! _ := mlift (max_below particle_indices (length (o_interaction_potential o))) in
    do! length_unit := mlift (length_unit_value (pp_length_unit pp)) in
    do! energy_unit := mlift (energy_unit_value (pp_energy_unit pp)) in
    do! mass_unit := mlift (mass_unit_value (pp_mass_unit pp)) in
    do! particles := make_particles ft normal_ok o length_unit energy_unit mass_unit pp particle_indices in
    mret (particles, mat, o, mkOU length_unit energy_unit mass_unit).
End Input.
Arguments Dist F : clear implicits.
Arguments ParticleParameters F : clear implicits.
Arguments InputData F : clear implicits.
Arguments Features F : clear implicits.
