(** * ModelLib.v - lib.rs: the C, Fortran and Python entry points.
    Raw pointers and Python dictionaries are not modelled: an argument array is
    a list.  The caller-visible effect of each function is its return value. *)
From Coq Require Import ZArith List Bool.
From Verif Require Import Num ModelTypes ModelConsts ModelParticle ModelGeometry ModelMaterial ModelBca ModelInput.
Import ListNotations.
Open Scope Z_scope.
Open Scope num_scope.

Section Lib.
  Context {F : Type} {NF : Num F}.

  (** The struct literal used for the incident ion: lib.rs 275-302, 392-419,
      482-509, 600-627, 725-752, 1223-1250, 1299-1326 *)
  Definition literal_incident (m Z_ E Ec Es x y z ux uy uz weight : F) (tag : Z) (tracked : Vector F) : Particle F :=
    {| p_m := m; p_Z := Z_; p_E := E; p_Ec := Ec; p_Es := Es; p_Ed := nZ 0;
       p_pos := mkV x y z; p_dir := mkV ux uy uz; p_pos_old := mkV x y z; p_dir_old := mkV ux uy uz;
       p_pos_origin := mkV x y z; p_energy_origin := E; p_asymptotic_deflection := nZ 0;
       p_stopped := false; p_left := false; p_incident := true; p_first_step := true;
       p_trajectory := []; p_energies := []; p_track_trajectories := false;
       p_number_collision_events := 0%nat; p_backreflected := false; p_interaction_index := 0%nat;
       p_weight := weight; p_tag := tag; p_tracked_vector := tracked |}.

  (** lib.rs 233, 366, 436, 558, 697, 842, 1201: the starting position;
      [10E30] is 10^31 *)
  Definition start_x (n2 : F) : F := nZ (-2) *! npowf (n2 *! nlit 10 30) (nZ (-1) /! nZ 3).

  (** lib.rs 237-257 and the like: a 0D target *)
  Definition target_0d (sbm : SurfaceBindingModel) (unit_ : LengthUnit F) (Z2 m2 n2 Ec2 Es2 Eb2 : list F)
      (Ed2 : list F) (indices : list nat) : Res (Material F) :=
    material_new
      {| mp_energy_unit := EU_EV; mp_mass_unit := MU_AMU; mp_Eb := Eb2; mp_Es := Es2; mp_Ec := Ec2;
         mp_Ed := Ed2; mp_Z := Z2; mp_m := m2; mp_interaction_index := indices;
         mp_surface_binding_model := sbm; mp_bulk_binding_model := BBM_INDIVIDUAL |}
      (let! g := mesh0d_new (mkMesh0DInput unit_ n2 (nZ 1)) in Ok (mesh0d_geometry g)).

  (** [(particle.left) | (particle.incident)]: lib.rs 308, 516, 634, 758, 888, 1108, 1276, 1352 *)
  Definition emitted (p : Particle F) : bool := p_left p || p_incident p.
  (** lib.rs 517-529, 635-647, 1276-1288, 1352-1364 *)
  Definition row9 (p : Particle F) : list F :=
    [p_Z p; p_m p /! cAMU; p_E p /! cEV;
     vx (p_pos p) /! cANGSTROM; vy (p_pos p) /! cANGSTROM; vz (p_pos p) /! cANGSTROM;
     vx (p_dir p); vy (p_dir p); vz (p_dir p)].
  (** lib.rs 309-323 *)
  Definition row9_tagged (p : Particle F) : list F :=
    [p_Z p; p_m p /! cAMU; p_E p /! cEV;
     vx (p_tracked_vector p) /! cANGSTROM; vy (p_tracked_vector p) /! cANGSTROM; vz (p_tracked_vector p) /! cANGSTROM;
     vx (p_dir p); vy (p_dir p); vz (p_dir p)].
  (** lib.rs 759-768 *)
  Definition row6 (p : Particle F) : list F :=
    [p_Z p; p_m p /! cAMU; p_E p /! cEV; vx (p_dir p); vy (p_dir p); vz (p_dir p)].
  (** lib.rs 892-909, 1113-1130 *)
  Definition row9_py (p : Particle F) : list F :=
    [p_Z p; p_m p /! cAMU; (if p_stopped p then nZ 0 else p_E p /! cEV);
     vx (p_pos p) /! cANGSTROM; vy (p_pos p) /! cANGSTROM; vz (p_pos p) /! cANGSTROM;
     vx (p_dir p); vy (p_dir p); vz (p_dir p)].

  (** lib.rs 468-532, 586-650: the loop over the ions, one single_ion_bca call
      per ion, in order, threading the random stream. *)
  Fixpoint run_all (build : Build F) (mat : Material F) (options : Options F) (fuel : nat)
      (ps : list (Particle F)) : M F (list (Particle F)) :=
    match ps with
    | [] => mret []
    | p :: ps' =>
        do! out := single_ion_bca build mat options fuel p in
        do! outs := run_all build mat options fuel ps' in
        mret (out ++ outs)
    end.

  (** lib.rs 264-302: speed, energy and direction from a velocity *)
  Definition velocity_ion (m1 Z1 Ec1 Es1 x : F) (weight : F) (tag : Z) (tracked velocity : Vector F) : Particle F :=
    let v := nsqrt (vx velocity *! vx velocity +! vy velocity *! vy velocity +! vz velocity *! vz velocity) in
    let E1 := nlit 5 (-1) *! m1 *! cAMU *! v *! v in
    literal_incident (m1 *! cAMU) Z1 E1 (Ec1 *! cEV) (Es1 *! cEV) x (nZ 0) (nZ 0)
      (vx velocity /! v) (vy velocity /! v) (vz velocity /! v) weight tag tracked.

  (** lib.rs 141-162 *)
  Record InputTagged : Type := mkInputTagged {
    it_positions : list (Vector F); it_velocities : list (Vector F);
    it_Z1 : F; it_m1 : F; it_Ec1 : F; it_Es1 : F;
    it_Z2 : list F; it_m2 : list F; it_n2 : list F; it_Ec2 : list F; it_Es2 : list F; it_Eb2 : list F;
    it_tags : list Z; it_weights : list F }.
  (** lib.rs 170-178 *)
  Record OutputTagged : Type := mkOutputTagged {
    ot_len : nat; ot_particles : list (list F); ot_weights : list F; ot_tags : list Z; ot_incident : list bool }.
  (** lib.rs 262-302: the ion of velocity [index] *)
  Definition tagged_ion (inp : InputTagged) (x : F) (index : nat) (velocity : Vector F) : Res (Particle F) :=
    let! weight := idx (it_weights inp) index in
    let! tag := idx (it_tags inp) index in
    let! position := idx (it_positions inp) index in
    Ok (velocity_ion (it_m1 inp) (it_Z1 inp) (it_Ec1 inp) (it_Es1 inp) x weight tag position velocity).
  Fixpoint tagged_loop (build : Build F) (mat : Material F) (options : Options F) (fuel : nat)
      (inp : InputTagged) (x : F) (index : nat) (velocities : list (Vector F)) : M F (list (Particle F)) :=
    match velocities with
    | [] => mret []
    | v :: vs =>
        do! p := mlift (tagged_ion inp x index v) in
        do! out := single_ion_bca build mat options fuel p in
        do! outs := tagged_loop build mat options fuel inp x (S index) vs in
        mret (out ++ outs)
    end.
  (** lib.rs 306-328: the four output vectors are pushed to together *)
  Fixpoint tagged_collect (ps : list (Particle F)) (total : list (list F)) (tags : list Z) (weights : list F)
      (incident : list bool) : list (list F) * list Z * list F * list bool :=
    match ps with
    | [] => (total, tags, weights, incident)
    | p :: ps' =>
        if emitted p
        then tagged_collect ps' (total ++ [row9_tagged p]) (tags ++ [p_tag p]) (weights ++ [p_weight p])
               (incident ++ [p_incident p])
        else tagged_collect ps' total tags weights incident
    end.
  (** lib.rs 213-350 *)
  Definition compound_tagged_bca_list_c (build : Build F) (fuel : nat) (inp : InputTagged) : M F OutputTagged :=
    let options := default_options true in
    let x := start_x (nsum (it_n2 inp)) in
    do! mat := mlift (target_0d SBM_AVERAGE LU_ANGSTROM (it_Z2 inp) (it_m2 inp) (it_n2 inp) (it_Ec2 inp) (it_Es2 inp)
                        (it_Eb2 inp) (repeat (nZ 0) (length (it_Z2 inp))) (repeat 0%nat (length (it_Z2 inp)))) in
    do! finished := tagged_loop build mat options fuel inp x 0 (it_velocities inp) in
    let '(total, tags, weights, incident) := tagged_collect finished [] [] [] [] in
    mret {| ot_len := length total; ot_particles := total; ot_weights := weights; ot_tags := tags;
            ot_incident := incident |}.

  (** lib.rs 545-660 *)
  Definition compound_bca_list_c (build : Build F) (fuel : nat) (velocities : list (Vector F)) (Z1 m1 Ec1 Es1 : F)
      (Z2 m2 n2 Ec2 Es2 Eb2 : list F) : M F (list (list F)) :=
    let x := start_x (nsum n2) in
    do! mat := mlift (target_0d SBM_AVERAGE LU_ANGSTROM Z2 m2 n2 Ec2 Es2 Eb2 (repeat (nZ 0) (length Z2))
                        (repeat 0%nat (length Z2))) in
    do! finished := run_all build mat (default_options true) fuel
      (map (velocity_ion m1 Z1 Ec1 Es1 x (nZ 1) 0 (mkV (nZ 0) (nZ 0) (nZ 0))) velocities) in
    mret (map row9 (filter emitted finished)).

  (** lib.rs 434-542.  NB line 452: the Ed list has the length of the ion
      list, not of the (one-element) target lists. *)
  Definition simple_bca_list_c (build : Build F) (fuel : nat) (velocities : list (Vector F)) (Z1 m1 Ec1 Es1 : F)
      (Z2 m2 n2 Ec2 Es2 Eb2 : F) : M F (list (list F)) :=
    let x := start_x n2 in
    do! mat := mlift (target_0d SBM_AVERAGE LU_ANGSTROM [Z2] [m2] [n2] [Ec2] [Es2] [Eb2]
                        (repeat (nZ 0) (length velocities)) [0%nat]) in
    do! finished := run_all build mat (default_options true) fuel
      (map (velocity_ion m1 Z1 Ec1 Es1 x (nZ 1) 0 (mkV (nZ 0) (nZ 0) (nZ 0))) velocities) in
    mret (map row9 (filter emitted finished)).

  (** lib.rs 353-431.  The result is (ux, uy, uz, E1) written back.
      [output[0]] panics on an empty list. *)
  Definition reflect_single_ion_c (build : Build F) (fuel : nat) (ux uy uz E1 Z1 m1 Ec1 Es1 : F)
      (Z2 m2 Ec2 Es2 Eb2 n2 : list F) : M F (F * F * F * F) :=
    do! _ := mlift (rassert (E1 >! nZ 0)) in
    do! mat := mlift (target_0d SBM_AVERAGE LU_ANGSTROM Z2 m2 n2 Ec2 Es2 Eb2 (repeat (nZ 0) (length Z2))
                        (repeat 0%nat (length Z2))) in
    do! output := single_ion_bca build mat (default_options false) fuel
      (literal_incident (m1 *! cAMU) Z1 (E1 *! cEV) (Ec1 *! cEV) (Es1 *! cEV) (start_x (nsum n2)) (nZ 0) (nZ 0)
         ux uy uz (nZ 1) 0 (mkV (nZ 0) (nZ 0) (nZ 0))) in
    do! o := mlift (idx output 0) in
    mret (vx (p_dir o), vy (p_dir o), vz (p_dir o),
          if vx (p_pos o) >=! nZ 0 then nZ 0 else p_E o /! cEV).

  (** lib.rs 1215-1289.  simple_bca_c (782-794) and simple_bca_py return it as is. *)
  Definition simple_bca (build : Build F) (fuel : nat) (x y z ux uy uz E1 Z1 m1 Ec1 Es1 Z2 m2 Ec2 Es2 n2 Eb2 : F)
      : M F (list (list F)) :=
    do! _ := mlift (rassert (E1 >! nZ 0)) in
    do! _ := mlift (rassert (Ec1 >! nZ 0)) in
    do! _ := mlift (rassert (Ec2 >! nZ 0)) in
    do! mat := mlift (target_0d SBM_AVERAGE LU_ANGSTROM [Z2] [m2] [n2] [Ec2] [Es2] [Eb2] [nZ 0] [0%nat]) in
    do! output := single_ion_bca build mat (default_options true) fuel
      (literal_incident (m1 *! cAMU) Z1 (E1 *! cEV) (Ec1 *! cEV) (Es1 *! cEV) x y z ux uy uz (nZ 1) 0
         (mkV (nZ 0) (nZ 0) (nZ 0))) in
    mret (map row9 (filter emitted output)).

  (** lib.rs 1194-1213: one simple_bca per ion ([ions] zips the four equally
      long arrays energies, usx, usy, usz), rows concatenated in order *)
  Fixpoint simple_bca_list_loop (one : F * Vector F -> M F (list (list F))) (ions : list (F * Vector F))
      : M F (list (list F)) :=
    match ions with
    | [] => mret []
    | i :: ions' =>
        do! rows := one i in
        do! rest := simple_bca_list_loop one ions' in
        mret (rows ++ rest)
    end.
  Definition simple_bca_list_py (build : Build F) (fuel : nat) (ions : list (F * Vector F))
      (Z1 m1 Ec1 Es1 Z2 m2 Ec2 Es2 n2 Eb2 : F) : M F (list (list F)) :=
    simple_bca_list_loop
      (fun i => simple_bca build fuel (start_x n2) (nZ 0) (nZ 0) (vx (snd i)) (vy (snd i)) (vz (snd i)) (fst i)
                  Z1 m1 Ec1 Es1 Z2 m2 Ec2 Es2 n2 Eb2) ions.

  (** lib.rs 1291-1365.  NB line 1337: [interaction_index: vec![0]]. *)
  Definition simple_compound_target (Z2 m2 Ec2 Es2 n2 Eb2 : list F) : Res (Material F) :=
    target_0d SBM_AVERAGE LU_ANGSTROM Z2 m2 n2 Ec2 Es2 Eb2 (repeat (nZ 0) (length Z2)) [0%nat].
  Definition simple_compound_bca (build : Build F) (fuel : nat) (x y z ux uy uz E1 Z1 m1 Ec1 Es1 : F)
      (Z2 m2 Ec2 Es2 n2 Eb2 : list F) : M F (list (list F)) :=
    do! _ := mlift (rassert (E1 >! nZ 0)) in
    do! _ := mlift (rassert (Ec1 >! nZ 0)) in
    do! mat := mlift (simple_compound_target Z2 m2 Ec2 Es2 n2 Eb2) in
    do! output := single_ion_bca build mat (default_options true) fuel
      (literal_incident (m1 *! cAMU) Z1 (E1 *! cEV) (Ec1 *! cEV) (Es1 *! cEV) x y z ux uy uz (nZ 1) 0
         (mkV (nZ 0) (nZ 0) (nZ 0))) in
    mret (map row9 (filter emitted output)).

  (** lib.rs 869, 1089: one ion of compound_bca_list_py: energy, ux, uy, uz, Z1, Ec1, Es1, m1 *)
  Record PyIon : Type := mkPyIon {
    py_energy : F; py_ux : F; py_uy : F; py_uz : F; py_Z1 : F; py_Ec1 : F; py_Es1 : F; py_m1 : F }.
  (** lib.rs 725-752: the ion of one element of the eight arrays handed to
      compound_bca_list_fortran *)
  Definition fortran_ion (x : F) (i : PyIon) : Particle F :=
    literal_incident (py_m1 i *! cAMU) (py_Z1 i) (py_energy i *! cEV) (py_Ec1 i *! cEV) (py_Es1 i *! cEV)
      x (nZ 0) (nZ 0) (py_ux i) (py_uy i) (py_uz i) (nZ 1) 0 (mkV (nZ 0) (nZ 0) (nZ 0)).
  (** lib.rs 663-780.  The arrays have the lengths the caller passes
      ([num_incident_ions], [num_species_target]); the result is
      ([num_emitted_particles], rows).  The conversion of the length to c_int
      is not modelled. *)
  Definition compound_bca_list_fortran (build : Build F) (fuel : nat) (track_recoils : bool) (ions : list PyIon)
      (Z2 m2 Ec2 Es2 Eb2 n2 : list F) : M F (nat * list (list F)) :=
    let n := length Z2 in
    do! mat := mlift (target_0d SBM_INDIVIDUAL LU_ANGSTROM Z2 m2 n2 Ec2 Es2 Eb2 (repeat (nZ 0) n) (repeat 0%nat n)) in
    do! finished := run_all build mat (default_options track_recoils) fuel
      (map (fortran_ion (start_x (nsum n2))) ions) in
    let total_output := map row6 (filter emitted finished) in
    mret (length total_output, total_output).

  (** lib.rs 887-911, 1107-1132: rows, incident flags and stopped flags are
      pushed together *)
  Fixpoint py_collect (ps : list (Particle F)) (rows : list (list F)) (incident stopped : list bool)
      : list (list F) * list bool * list bool :=
    match ps with
    | [] => (rows, incident, stopped)
    | p :: ps' =>
        if emitted p then py_collect ps' (rows ++ [row9_py p]) (incident ++ [p_incident p]) (stopped ++ [p_stopped p])
        else py_collect ps' rows incident stopped
    end.
  Fixpoint py_loop (build : Build F) (mat : Material F) (options : Options F) (fuel : nat) (x : F)
      (ions : list PyIon) : M F (list (Particle F)) :=
    match ions with
    | [] => mret []
    | i :: is =>
        do! p := mlift (default_incident (py_m1 i) (py_Z1 i) (py_energy i) (py_Ec1 i) (py_Es1 i) x
                          (py_ux i) (py_uy i) (py_uz i)) in
        do! out := single_ion_bca build mat options fuel p in
        do! outs := py_loop build mat options fuel x is in
        mret (out ++ outs)
    end.
  (** lib.rs 820-915, after the length checks (the eight equally long ion
      arrays are zipped into [ions]) *)
  Definition compound_bca_list_py (build : Build F) (fuel : nat) (ions : list PyIon)
      (Z2 m2 Ec2 Es2 n2 Eb2 : list F) : M F (list (list F) * list bool) :=
    let n := length Z2 in
    do! _ := mlift (rassert (Nat.eqb (length m2) n)) in
    do! _ := mlift (rassert (Nat.eqb (length Ec2) n)) in
    do! _ := mlift (rassert (Nat.eqb (length Es2) n)) in
    do! _ := mlift (rassert (Nat.eqb (length Eb2) n)) in
    do! _ := mlift (rassert (Nat.eqb (length n2) n)) in
    do! mat := mlift (target_0d SBM_INDIVIDUAL LU_ANGSTROM Z2 m2 n2 Ec2 Es2 Eb2 (repeat (nZ 0) n) (repeat 0%nat n)) in
    do! finished := py_loop build mat (default_options true) fuel (start_x (nsum n2)) ions in
    let '(rows, incident, _) := py_collect finished [] [] [] in
    mret (rows, incident).

  (** lib.rs 1033-1136: the 1D variant.  The ion starts half a barrier
      thickness outside the surface (line 1085). *)
  Definition compound_bca_list_1D_py (build : Build F) (fuel : nat) (ions : list PyIon)
      (Z2 m2 Ec2 Es2 Eb2 : list F) (n2 : list (list F)) (dx : list F) : M F (list (list F) * list bool * list bool) :=
    let n := length Z2 in
    do! _ := mlift (rassert (Nat.eqb (length m2) n)) in
    do! _ := mlift (rassert (Nat.eqb (length Ec2) n)) in
    do! _ := mlift (rassert (Nat.eqb (length Es2) n)) in
    do! _ := mlift (rassert (Nat.eqb (length Eb2) n)) in
    do! row := mlift (idx n2 0) in
    do! _ := mlift (rassert (Nat.eqb (length row) n)) in
    do! _ := mlift (rassert (Nat.eqb (length dx) (length n2))) in
    do! g := mlift (mesh1d_new (mkMesh1DInput LU_ANGSTROM dx n2 (repeat (nZ 1) (length n2)))) in
    do! mat := mlift (material_new
      {| mp_energy_unit := EU_EV; mp_mass_unit := MU_AMU; mp_Eb := Eb2; mp_Es := Es2; mp_Ec := Ec2;
         mp_Ed := repeat (nZ 0) n; mp_Z := Z2; mp_m := m2; mp_interaction_index := repeat 0%nat n;
         mp_surface_binding_model := SBM_INDIVIDUAL; mp_bulk_binding_model := BBM_INDIVIDUAL |}
      (Ok (mesh1d_geometry g))) in
    let x := (-! m1_top_energy_barrier_thickness g) /! nZ 2 in
    do! finished := py_loop build mat (default_options true) fuel x ions in
    mret (py_collect finished [] [] []).

  (** lib.rs 1533-1555: a single-species target with densities in 1/m^3, and
      the starting position -barrier thickness *)
  Definition yield_target (Z2 m2 Ec2 Es2 Eb2 n2 : list F) : Res (Material F * F) :=
    let! g := mesh0d_new (mkMesh0DInput LU_M n2 (nZ 1)) in
    let! mat := material_new
      {| mp_energy_unit := EU_EV; mp_mass_unit := MU_AMU; mp_Eb := Eb2; mp_Es := Es2; mp_Ec := Ec2;
         mp_Ed := repeat (nZ 0) (length Z2); mp_Z := Z2; mp_m := m2; mp_interaction_index := repeat 0%nat (length Z2);
         mp_surface_binding_model := SBM_AVERAGE; mp_bulk_binding_model := BBM_INDIVIDUAL |}
      (Ok (mesh0d_geometry g)) in
    Ok (mat, -! m0_energy_barrier_thickness g).
  (** lib.rs 1529-1531 *)
  Definition incidence (angle : F) : Vector F :=
    mkV (ncos (angle /! nZ 180 *! npi) +! nlit 1 (-6)) (nsin (angle /! nZ 180 *! npi) -! nlit 1 (-6)) (nZ 0).
  (** One sample of the parallel loops: lib.rs 1559-1573 *)
  Definition yield_sample (build : Build F) (fuel : nat) (mat : Material F) (options : Options F) (x : F)
      (m1 Z1 energy Ec1 Es1 : F) (u : Vector F) (rng : Rng F) : Res (list (Particle F)) :=
    let! p := default_incident m1 Z1 energy Ec1 Es1 x (vx u) (vy u) (vz u) in
    let! (out, _) := single_ion_bca build mat options fuel p rng 0%nat in
    Ok out.
  (** lib.rs 1576, 1673, 1776: is the particle counted? *)
  Definition counted (incident : bool) (p : Particle F) : bool :=
    (p_E p >! nZ 0) && (vx (p_dir p) <! nZ 0) && p_left p && Bool.eqb (p_incident p) incident.

  (** lib.rs 1559-1583, 1656-1682: the counters are behind mutexes; the worker threads execute the counted
      particles' updates in some interleaving of the per-sample sequences
      (both locks of reflection_coefficient are held together). *)
  Inductive Interleave {A : Type} : list (list A) -> list A -> Prop :=
  | il_done ls : Forall (fun l => l = []) ls -> Interleave ls []
  | il_step ls1 a l ls2 t :
      Interleave (ls1 ++ l :: ls2) t -> Interleave (ls1 ++ (a :: l) :: ls2) (a :: t).
  (** lib.rs 1575-1583: [schedule] is the order in which the particles of the
      samples reach the counter *)
  Definition sputtering_yield_of (num_samples : nat) (schedule : list (Particle F)) : F :=
    nnat (length (filter (counted false) schedule)) /! nnat num_samples.
  (** lib.rs 1672-1684 *)
  Definition reflection_coefficient_of (energy : F) (num_samples : nat) (schedule : list (Particle F)) : F * F :=
    let counted_ := filter (counted true) schedule in
    let energy_reflected := fold_left (fun acc p => acc +! p_E p) counted_ (nZ 0) in
    (nnat (length counted_) /! nnat num_samples, energy_reflected /! cEV /! energy /! nnat num_samples).
  (** lib.rs 1506-1584 as a relation between the samples' random streams and
      the result *)
  Definition sputtering_yield (build : Build F) (fuel : nat) (Z1 m1 Ec1 Es1 Z2 m2 Ec2 Es2 Eb2 n2 energy angle : F)
      (rngs : list (Rng F)) (result : F) : Prop :=
    exists mat x outs schedule,
      rassert (nabs angle <=! nZ 90) = Ok tt /\
      yield_target [Z2] [m2] [Ec2] [Es2] [Eb2] [n2] = Ok (mat, x) /\
      mapM (yield_sample build fuel mat (default_options true) x m1 Z1 energy Ec1 Es1 (incidence angle)) rngs = Ok outs /\
      Interleave outs schedule /\
      result = sputtering_yield_of (length rngs) schedule.
  (** lib.rs 1599-1685; compound_reflection_coefficient (1701-1788) is the same
      with several target species *)
  Definition reflection_coefficient (build : Build F) (fuel : nat) (Z1 m1 Ec1 Es1 : F)
      (Z2 m2 Ec2 Es2 Eb2 n2 : list F) (energy angle : F)
      (rngs : list (Rng F)) (result : F * F) : Prop :=
    exists mat x outs schedule,
      rassert (nabs angle <=! nZ 90) = Ok tt /\
      yield_target Z2 m2 Ec2 Es2 Eb2 n2 = Ok (mat, x) /\
      mapM (yield_sample build fuel mat (default_options false) x m1 Z1 energy Ec1 Es1 (incidence angle)) rngs = Ok outs /\
      Interleave outs schedule /\
      result = reflection_coefficient_of energy (length rngs) schedule.

  (** lib.rs 927-1005: reflect_single_ion_py *)
  Definition reflect_single_ion_py (build : Build F) (fuel : nat) (Z1 m1 Ec1 Es1 Z2 m2 Ec2 Es2 Eb2 n2 v1 v2 v3 : F)
      : M F (F * F * F) :=
    do! _ := mlift (rassert (v1 >! nZ 0)) in
    let velocity2 := npowf v1 (nZ 2) +! npowf v2 (nZ 2) +! npowf v3 (nZ 2) in
    let energy_eV := nlit 5 (-1) *! m1 *! cAMU *! velocity2 /! cEV in
    do! (mat, x) := mlift (yield_target [Z2] [m2] [Ec2] [Es2] [Eb2] [n2]) in
    do! p := mlift (default_incident m1 Z1 energy_eV Ec1 Es1 x (v1 /! nsqrt velocity2) (v2 /! nsqrt velocity2)
                      (v3 /! nsqrt velocity2)) in
    do! output := single_ion_bca build mat (default_options false) fuel p in
    do! o := mlift (idx output 0) in
    let reflected_velocity := nsqrt (nZ 2 *! p_E o /! (m1 *! cAMU)) in
    mret (if (p_E o >! nZ 0) && (vx (p_dir o) <! nZ 0) && p_left o && p_incident o
          then (vx (p_dir o) *! reflected_velocity, vy (p_dir o) *! reflected_velocity, vz (p_dir o) *! reflected_velocity)
          else (nZ 0, nZ 0, nZ 0)).

  (** ** Surface-normal frames: lib.rs 1369-1410, 1437-1465.  Row-major 3x3. *)
  Record Matrix3 : Type := mkM3 {
    a11 : F; a12 : F; a13 : F; a21 : F; a22 : F; a23 : F; a31 : F; a32 : F; a33 : F }.
  Definition m3_mul (a b : Matrix3) : Matrix3 :=
    {| a11 := a11 a *! a11 b +! a12 a *! a21 b +! a13 a *! a31 b;
       a12 := a11 a *! a12 b +! a12 a *! a22 b +! a13 a *! a32 b;
       a13 := a11 a *! a13 b +! a12 a *! a23 b +! a13 a *! a33 b;
       a21 := a21 a *! a11 b +! a22 a *! a21 b +! a23 a *! a31 b;
       a22 := a21 a *! a12 b +! a22 a *! a22 b +! a23 a *! a32 b;
       a23 := a21 a *! a13 b +! a22 a *! a23 b +! a23 a *! a33 b;
       a31 := a31 a *! a11 b +! a32 a *! a21 b +! a33 a *! a31 b;
       a32 := a31 a *! a12 b +! a32 a *! a22 b +! a33 a *! a32 b;
       a33 := a31 a *! a13 b +! a32 a *! a23 b +! a33 a *! a33 b |}.
  Definition m3_map2 (f : F -> F -> F) (a b : Matrix3) : Matrix3 :=
    {| a11 := f (a11 a) (a11 b); a12 := f (a12 a) (a12 b); a13 := f (a13 a) (a13 b);
       a21 := f (a21 a) (a21 b); a22 := f (a22 a) (a22 b); a23 := f (a23 a) (a23 b);
       a31 := f (a31 a) (a31 b); a32 := f (a32 a) (a32 b); a33 := f (a33 a) (a33 b) |}.
  Definition m3_div (a : Matrix3) (s : F) : Matrix3 :=
    {| a11 := a11 a /! s; a12 := a12 a /! s; a13 := a13 a /! s;
       a21 := a21 a /! s; a22 := a22 a /! s; a23 := a23 a /! s;
       a31 := a31 a /! s; a32 := a32 a /! s; a33 := a33 a /! s |}.
  Definition m3_transpose (a : Matrix3) : Matrix3 :=
    {| a11 := a11 a; a12 := a21 a; a13 := a31 a; a21 := a12 a; a22 := a22 a; a23 := a32 a;
       a31 := a13 a; a32 := a23 a; a33 := a33 a |}.
  Definition m3_apply (a : Matrix3) (v : Vector F) : Vector F :=
    mkV (a11 a *! vx v +! a12 a *! vy v +! a13 a *! vz v)
        (a21 a *! vx v +! a22 a *! vy v +! a23 a *! vz v)
        (a31 a *! vx v +! a32 a *! vy v +! a33 a *! vz v).
  Definition m3_identity : Matrix3 := mkM3 (nZ 1) (nZ 0) (nZ 0) (nZ 0) (nZ 1) (nZ 0) (nZ 0) (nZ 0) (nZ 1).
  (** lib.rs 1390, 1457: nalgebra's rotation by [angle] about the y axis *)
  Definition m3_rotation_y (angle : F) : Matrix3 :=
    mkM3 (ncos angle) (nZ 0) (nsin angle) (nZ 0) (nZ 1) (nZ 0) (-! nsin angle) (nZ 0) (ncos angle).
  (** lib.rs 1373-1391, 1440-1458 *)
  Definition surface_rotation (nx ny nz : F) : Matrix3 :=
    let ix := -! nx in
    let iy := -! ny in
    let iz := -! nz in
    (* into_surface cross (1,0,0) and dot (1,0,0) *)
    let v := mkV (iy *! nZ 0 -! iz *! nZ 0) (iz *! nZ 1 -! ix *! nZ 0) (ix *! nZ 0 -! iy *! nZ 1) in
    let c := ix *! nZ 1 +! iy *! nZ 0 +! iz *! nZ 0 in
    let k := mkM3 (nZ 0) (-! vz v) (vy v) (vz v) (nZ 0) (-! vx v) (-! vy v) (vx v) (nZ 0) in
    if negb (c ==! nZ (-1))
    then m3_map2 nadd (m3_map2 nadd m3_identity k) (m3_div (m3_mul k k) (nZ 1 +! c))
    else m3_rotation_y npi.
  (** lib.rs 1369-1410 *)
  Definition rotate_given_surface_normal (nx ny nz : F) (u : Vector F) : Res (Vector F) :=
    let incident := m3_apply (surface_rotation nx ny nz) u in
    let ux := vx incident +! nlit 1 (-9) in
    let! _ := rassert (ux >! nZ 0) in
    let uy := vy incident -! nlit 1 (-9) in
    let uz := vz incident in
    let mag := nsqrt (npowf ux (nZ 2) +! npowf uy (nZ 2) +! npowf uz (nZ 2)) in
    Ok (mkV (ux /! mag) (uy /! mag) (uz /! mag)).
  (** lib.rs 1437-1465 *)
  Definition rotate_back (nx ny nz : F) (u : Vector F) : Vector F :=
    m3_apply (m3_transpose (surface_rotation nx ny nz)) u.
End Lib.
Arguments InputTagged F : clear implicits.
Arguments OutputTagged F : clear implicits.
Arguments PyIon F : clear implicits.
Arguments Matrix3 F : clear implicits.

(** ** Memory handed to C.  A Vec<T> of length len and capacity cap >= len owns
    cap * size_of::<T>() bytes; the size passed to dealloc is the second
    component.  lib.rs 181-211 (dealloc), 332-341, 534-537 (allocation). *)
Definition sizeof_f64x9 : nat := 72.
Definition sizeof_f64 : nat := 8.
Definition sizeof_i32 : nat := 4.
Definition sizeof_bool : nat := 1.
Record Block : Type := mkBlock { allocated_bytes : nat; freed_bytes : nat }.
Definition vec_block (elem_size len cap : nat) : Block := mkBlock (cap * elem_size) len.
(** lib.rs 181-198; nothing is freed when the length is zero *)
Definition drop_output_tagged_bca (len cap_particles cap_weights cap_tags cap_incident : nat) : list Block :=
  match len with
  | O => []
  | S _ => [vec_block sizeof_f64x9 len cap_particles; vec_block sizeof_f64 len cap_weights;
            vec_block sizeof_i32 len cap_tags; vec_block sizeof_bool len cap_incident]
  end.
(** lib.rs 201-211 *)
Definition drop_output_bca (len cap : nat) : list Block :=
  match len with
  | O => []
  | S _ => [vec_block sizeof_f64x9 len cap]
  end.
