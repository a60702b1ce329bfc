(** * SpecToml.v - how an input file is written down (docs: the input file keys), independently of how it is read *)
From Coq Require Import ZArith List Bool String.
From Verif Require Import Num ModelTypes ModelGeometry ModelMaterial ModelInput ModelToml.
Import ListNotations.
Open Scope string_scope.
Open Scope nat_scope.

Section SpecToml.
  Context {F : Type} {NF : Num F}.
  Context (parse : string -> option F).

  (** ** Values *)
  Definition w_nat (n : nat) : Toml F := TInt (Z.of_nat n).
  Definition w_list {A} (w : A -> Toml F) (l : list A) : Toml F := TArray (map w l).
  Definition w_pair (p : F * F) : Toml F := TArray [TFloat (fst p); TFloat (snd p)].
  Definition w_triple {A} (w : A -> Toml F) (t : A * A * A) : Toml F := TArray [w (fst (fst t)); w (snd (fst t)); w (snd t)].
  Definition w_dist (d : Dist F) : Toml F :=
    match d with
    | UNIFORM a b => TTable [("min", TFloat a); ("max", TFloat b)]
    | NORMAL m s => TTable [("mean", TFloat m); ("std", TFloat s)]
    | POINT v => TFloat v
    end.
  Definition w_stopping (m : ElectronicStoppingMode) : Toml F :=
    TString match m with
            | INTERPOLATED => "INTERPOLATED" | LOW_ENERGY_LOCAL => "LOW_ENERGY_LOCAL"
            | LOW_ENERGY_NONLOCAL => "LOW_ENERGY_NONLOCAL" | LOW_ENERGY_EQUIPARTITION => "LOW_ENERGY_EQUIPARTITION" end.
  Definition w_calculation (c : SurfaceBindingCalculation) : Toml F :=
    TString match c with SBC_INDIVIDUAL => "INDIVIDUAL" | SBC_TARGET => "TARGET" | SBC_AVERAGE => "AVERAGE" end.
  Definition w_variant (name : string) (fields : list (string * Toml F)) : Toml F := TTable [(name, TTable fields)].
  Definition w_surface (m : SurfaceBindingModel) : Toml F :=
    match m with
    | ISOTROPIC c => w_variant "ISOTROPIC" [("calculation", w_calculation c)]
    | PLANAR c => w_variant "PLANAR" [("calculation", w_calculation c)]
    | SBM_TARGET => TString "TARGET" | SBM_INDIVIDUAL => TString "INDIVIDUAL" | SBM_AVERAGE => TString "AVERAGE"
    end.
  Definition w_bulk (m : BulkBindingModel) : Toml F :=
    TString match m with BBM_INDIVIDUAL => "INDIVIDUAL" | BBM_AVERAGE => "AVERAGE" end.
  Definition w_mean_free_path (m : MeanFreePathModel F) : Toml F :=
    match m with
    | LIQUID => TString "LIQUID" | GASEOUS => TString "GASEOUS"
    | THRESHOLD d => w_variant "THRESHOLD" [("density", TFloat d)]
    end.
  Definition w_potential (p : InteractionPotential F) : Toml F :=
    match p with
    | TRIDYN => TString "TRIDYN" | MOLIERE => TString "MOLIERE" | KR_C => TString "KR_C" | ZBL => TString "ZBL"
    | LENZ_JENSEN => TString "LENZ_JENSEN" | WW => TString "WW"
    | LENNARD_JONES_12_6 s e => w_variant "LENNARD_JONES_12_6" [("sigma", TFloat s); ("epsilon", TFloat e)]
    | LENNARD_JONES_65_6 s e => w_variant "LENNARD_JONES_65_6" [("sigma", TFloat s); ("epsilon", TFloat e)]
    | MORSE D a r0 => w_variant "MORSE" [("D", TFloat D); ("alpha", TFloat a); ("r0", TFloat r0)]
    | COULOMB a b => w_variant "COULOMB" [("Za", TFloat a); ("Zb", TFloat b)]
    | KRC_MORSE D a r0 k x0 => w_variant "KRC_MORSE" [("D", TFloat D); ("alpha", TFloat a); ("r0", TFloat r0); ("k", TFloat k); ("x0", TFloat x0)]
    | FOUR_EIGHT a b => w_variant "FOUR_EIGHT" [("alpha", TFloat a); ("beta", TFloat b)]
    end.
  Definition w_scattering (s : ScatteringIntegral) : Toml F :=
    match s with
    | MENDENHALL_WELLER => TString "MENDENHALL_WELLER" | MAGIC => TString "MAGIC" | GAUSS_LEGENDRE => TString "GAUSS_LEGENDRE"
    | GAUSS_MEHLER n => w_variant "GAUSS_MEHLER" [("n_points", w_nat n)]
    end.
  Definition w_rootfinder (r : Rootfinder F) : Toml F :=
    match r with
    | DEFAULTNEWTON => TString "DEFAULTNEWTON"
    | NEWTON n x => w_variant "NEWTON" [("max_iterations", w_nat n); ("tolerance", TFloat x)]
    | POLYNOMIAL c => w_variant "POLYNOMIAL" [("complex_threshold", TFloat c)]
    | CPR n0 nmax e c t f i d =>
        w_variant "CPR" [("n0", w_nat n0); ("nmax", w_nat nmax); ("epsilon", TFloat e); ("complex_threshold", TFloat c);
                         ("truncation_threshold", TFloat t); ("far_from_zero", TFloat f); ("interval_limit", TFloat i);
                         ("derivative_free", TBool d)]
    end.
  Definition w_floats (l : list F) : Toml F := w_list TFloat l.
  Definition w_nats (l : list nat) : Toml F := w_list w_nat l.
  Definition w_matrix {A} (w : A -> Toml F) (l : list (list A)) : Toml F := w_list (w_list w) l.
  (** a unit: one of the names, or any other string, taken as a number *)
  Definition names {U} (known : list (string * U)) (other : option F -> U) (s : string) (u : U) : Prop :=
    In (s, u) known \/ (~ In s (map fst known) /\ u = other (parse s)).
  Definition names_length : string -> LengthUnit F -> Prop :=
    names [("ANGSTROM", LU_ANGSTROM); ("NM", LU_NM); ("MICRON", LU_MICRON); ("MM", LU_MM); ("CM", LU_CM); ("M", LU_M)] LU_other.
  Definition names_energy : string -> EnergyUnit F -> Prop :=
    names [("EV", EU_EV); ("KEV", EU_KEV); ("MEV", EU_MEV); ("J", EU_J)] EU_other.
  Definition names_mass : string -> MassUnit F -> Prop := names [("AMU", MU_AMU); ("KG", MU_KG)] MU_other.

  (** ** Tables *)
  (** key [k] of table [l] has value [v] *)
  Definition given (l : list (string * Toml F)) (k : string) (v : Toml F) : Prop := In (k, v) l.
  Definition omitted (l : list (string * Toml F)) (k : string) : Prop := ~ In k (map fst l).
  (** key [k] says [v], or is left out and [v] is the default *)
  Definition says {A} (l : list (string * Toml F)) (k : string) (w : A -> Toml F) (default v : A) : Prop :=
    given l k (w v) \/ (omitted l k /\ v = default).
  Definition keys_distinct (l : list (string * Toml F)) : Prop := NoDup (map fst l).

  Definition options_written (l : list (string * Toml F)) (name : string) (o : Options F) : Prop :=
    keys_distinct l /\ given l "name" (TString name) /\
    says l "track_trajectories" TBool false (o_track_trajectories o) /\
    says l "track_recoils" TBool true (o_track_recoils o) /\
    says l "track_recoil_trajectories" TBool false (o_track_recoil_trajectories o) /\
    says l "write_buffer_size" w_nat (8 * 1024) (o_write_buffer_size o) /\
    says l "weak_collision_order" w_nat 0 (o_weak_collision_order o) /\
    says l "suppress_deep_recoils" TBool false (o_suppress_deep_recoils o) /\
    says l "high_energy_free_flight_paths" TBool false (o_high_energy_free_flight_paths o) /\
    says l "electronic_stopping_mode" w_stopping LOW_ENERGY_NONLOCAL (o_electronic_stopping_mode o) /\
    says l "mean_free_path_model" w_mean_free_path LIQUID (o_mean_free_path_model o) /\
    says l "interaction_potential" (w_matrix w_potential) [[KR_C]] (o_interaction_potential o) /\
    says l "scattering_integral" (w_matrix w_scattering) [[MENDENHALL_WELLER]] (o_scattering_integral o) /\
    says l "root_finder" (w_matrix w_rootfinder) [[DEFAULTNEWTON]] (o_root_finder o) /\
    says l "num_threads" w_nat 1 (o_num_threads o) /\
    says l "num_chunks" w_nat 1 (o_num_chunks o) /\
    says l "use_hdf5" TBool false (o_use_hdf5 o) /\
    says l "track_displacements" TBool false (o_track_displacements o) /\
    says l "track_energy_losses" TBool false (o_track_energy_losses o).
  Definition material_written (l : list (string * Toml F)) (p : MaterialParameters F) : Prop :=
    keys_distinct l /\
    (exists s, given l "energy_unit" (TString s) /\ names_energy s (mp_energy_unit p)) /\
    (exists s, given l "mass_unit" (TString s) /\ names_mass s (mp_mass_unit p)) /\
    given l "Eb" (w_floats (mp_Eb p)) /\ given l "Es" (w_floats (mp_Es p)) /\ given l "Ec" (w_floats (mp_Ec p)) /\
    says l "Ed" w_floats [nZ 0] (mp_Ed p) /\ given l "Z" (w_floats (mp_Z p)) /\ given l "m" (w_floats (mp_m p)) /\
    says l "interaction_index" w_nats [0] (mp_interaction_index p) /\
    says l "surface_binding_model" w_surface SBM_TARGET (mp_surface_binding_model p) /\
    says l "bulk_binding_model" w_bulk BBM_INDIVIDUAL (mp_bulk_binding_model p).
  Definition particles_written (l : list (string * Toml F)) (p : ParticleParameters F) : Prop :=
    keys_distinct l /\
    (exists s, given l "length_unit" (TString s) /\ names_length s (pp_length_unit p)) /\
    (exists s, given l "energy_unit" (TString s) /\ names_energy s (pp_energy_unit p)) /\
    (exists s, given l "mass_unit" (TString s) /\ names_mass s (pp_mass_unit p)) /\
    given l "N" (w_nats (pp_N p)) /\ given l "m" (w_floats (pp_m p)) /\ given l "Z" (w_floats (pp_Z p)) /\
    given l "E" (w_list w_dist (pp_E p)) /\ given l "Ec" (w_floats (pp_Ec p)) /\ given l "Es" (w_floats (pp_Es p)) /\
    given l "pos" (w_list (w_triple w_dist) (pp_pos p)) /\ given l "dir" (w_list (w_triple w_dist) (pp_dir p)) /\
    says l "interaction_index" w_nats [0] (pp_interaction_index p).
  Definition unit_written (l : list (string * Toml F)) (u : LengthUnit F) : Prop :=
    exists s, given l "length_unit" (TString s) /\ names_length s u.
  Definition mesh0d_written (l : list (string * Toml F)) (g : Mesh0DInput F) : Prop :=
    keys_distinct l /\ unit_written l (m0i_length_unit g) /\ given l "densities" (w_floats (m0i_densities g)) /\
    given l "electronic_stopping_correction_factor" (TFloat (m0i_ck g)).
  Definition mesh1d_written (l : list (string * Toml F)) (g : Mesh1DInput F) : Prop :=
    keys_distinct l /\ unit_written l (m1i_length_unit g) /\ given l "layer_thicknesses" (w_floats (m1i_layer_thicknesses g)) /\
    given l "densities" (w_matrix TFloat (m1i_densities g)) /\
    given l "electronic_stopping_correction_factors" (w_floats (m1i_cks g)).
  Definition mesh2d_written (l : list (string * Toml F)) (g : Mesh2DInput F) : Prop :=
    keys_distinct l /\ unit_written l (m2i_length_unit g) /\ given l "triangles" (w_list (w_triple w_nat) (m2i_triangles g)) /\
    given l "points" (w_list w_pair (m2i_points g)) /\ given l "boundary" (w_nats (m2i_boundary g)) /\
    given l "simulation_boundary_points" (w_list w_pair (m2i_simulation_boundary_points g)) /\
    given l "densities" (w_matrix TFloat (m2i_densities g)) /\
    given l "electronic_stopping_correction_factors" (w_floats (m2i_cks g)) /\
    given l "energy_barrier_thickness" (TFloat (m2i_energy_barrier_thickness g)).
  Definition homogeneous2d_written (l : list (string * Toml F)) (g : HomogeneousMesh2DInput F) : Prop :=
    keys_distinct l /\ unit_written l (h2i_length_unit g) /\ given l "points" (w_list w_pair (h2i_points g)) /\
    given l "simulation_boundary_points" (w_list w_pair (h2i_simulation_boundary_points g)) /\
    given l "densities" (w_floats (h2i_densities g)) /\ given l "electronic_stopping_correction_factor" (TFloat (h2i_ck g)).
  Definition sphere_written (l : list (string * Toml F)) (g : SphereInput F) : Prop :=
    keys_distinct l /\ unit_written l (si_length_unit g) /\ given l "radius" (TFloat (si_radius g)) /\
    given l "densities" (w_floats (si_densities g)) /\ given l "electronic_stopping_correction_factor" (TFloat (si_ck g)).
  (** vertex numbers are 32-bit (parry.rs 164) *)
  Definition trimesh_written (l : list (string * Toml F)) (g : ParryTriMeshInput F) : Prop :=
    keys_distinct l /\ unit_written l (pti_length_unit g) /\ given l "densities" (w_floats (pti_densities g)) /\
    given l "electronic_stopping_correction_factor" (TFloat (pti_ck g)) /\
    given l "vertices" (w_list (w_triple TFloat) (pti_vertices g)) /\ given l "indices" (w_list (w_triple w_nat) (pti_indices g)) /\
    Forall (fun t => (Z.of_nat (fst (fst t)) < 2 ^ 32 /\ Z.of_nat (snd (fst t)) < 2 ^ 32 /\ Z.of_nat (snd t) < 2 ^ 32)%Z) (pti_indices g).
  (** the whole file *)
  Definition file_written {G} (geometry_written : list (string * Toml F) -> G -> Prop) (l : list (string * Toml F))
      (name : string) (o : Options F) (m : MaterialParameters F) (p : ParticleParameters F) (g : G) : Prop :=
    keys_distinct l /\
    (exists t, given l "options" (TTable t) /\ options_written t name o) /\
    (exists t, given l "material_parameters" (TTable t) /\ material_written t m) /\
    (exists t, given l "particle_parameters" (TTable t) /\ particles_written t p) /\
    (exists t, given l "geometry_input" (TTable t) /\ geometry_written t g).

  (** ** The keys *)
  Definition option_keys : list string :=
    ["name"; "track_trajectories"; "track_recoils"; "track_recoil_trajectories"; "write_buffer_size"; "weak_collision_order";
     "suppress_deep_recoils"; "high_energy_free_flight_paths"; "electronic_stopping_mode"; "mean_free_path_model";
     "interaction_potential"; "scattering_integral"; "root_finder"; "num_threads"; "num_chunks"; "use_hdf5";
     "track_displacements"; "track_energy_losses"].
  Definition material_required : list string := ["energy_unit"; "mass_unit"; "Eb"; "Es"; "Ec"; "Z"; "m"].
  Definition material_keys : list string := material_required ++ ["Ed"; "interaction_index"; "surface_binding_model"; "bulk_binding_model"].
  Definition particle_required : list string :=
    ["length_unit"; "energy_unit"; "mass_unit"; "N"; "m"; "Z"; "E"; "Ec"; "Es"; "pos"; "dir"].
  Definition particle_keys : list string := particle_required ++ ["interaction_index"].
  (** two tables say the same about [keys] *)
  Definition same_for (keys : list string) (l l' : list (string * Toml F)) : Prop :=
    forall k v, In k keys -> In (k, v) l <-> In (k, v) l'.
  (** the particle section with other interaction indices *)
  Definition replace_particle_index (l : list nat) (p : ParticleParameters F) : ParticleParameters F :=
    mkParticleParameters (pp_length_unit p) (pp_energy_unit p) (pp_mass_unit p) (pp_N p) (pp_m p) (pp_Z p) (pp_E p) (pp_Ec p) (pp_Es p)
      (pp_pos p) (pp_dir p) l.
  (** a file of the four sections *)
  Definition sections (options material particles : list (string * Toml F)) (geometry : Toml F) : Toml F :=
    TTable [("options", TTable options); ("material_parameters", TTable material); ("particle_parameters", TTable particles);
            ("geometry_input", geometry)].
End SpecToml.
