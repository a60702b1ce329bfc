(** * ModelToml.v - the input file as a TOML document: what the [Deserialize] derivations of the
    input structures and [InputFile::new] read from it.
    The document is the tree the toml crate makes of the text (the text itself, its syntax errors and
    duplicate keys are not modelled).  Written as serde documents for derived structures: keys that
    no field names are ignored, a missing key without a default is an error, integers are accepted
    where a float is expected.  Not modelled, and rejected here: a structure written as an array, a
    unit variant written as a table, arrays longer than the tuple they stand for. *)
From Coq Require Import ZArith List Bool String.
From Verif Require Import Num ModelTypes ModelGeometry ModelMaterial ModelInput.
Import ListNotations.
Open Scope string_scope.
Open Scope Z_scope.

(** A TOML value: what [toml::from_str] (input.rs 32) hands to the deserializers. *)
Inductive Toml (F : Type) : Type :=
| TBool (b : bool) | TInt (z : Z) | TFloat (x : F) | TString (s : string)
| TArray (l : list (Toml F)) | TTable (l : list (string * Toml F)).
Arguments TBool {F}. Arguments TInt {F}. Arguments TFloat {F}. Arguments TString {F}. Arguments TArray {F}. Arguments TTable {F}.

Section Toml.
  Context {F : Type} {NF : Num F}.
  (** [str::parse::<f64>] of a unit string (input.rs 500, 511, 521) *)
  Context (parse : string -> option F).

  (** input.rs 34: any deserialization error ends in the [unwrap] of input.rs 34, 71, 106, 141. *)
  Definition bad {A} : Res A := Panic UnwrapErr.
  Fixpoint lookup {A} (key : string) (l : list (string * A)) : option A :=
    match l with
    | [] => None
    | (k, v) :: l' => if String.eqb k key then Some v else lookup key l'
    end.
  (** primitive types, vectors and tuples: the field types of input.rs 214-253, material.rs 22-38, particle.rs 28-44 *)
  (** bool (input.rs 220) *)
  Definition de_bool (t : Toml F) : Res bool := match t with TBool b => Ok b | _ => bad end.
  (** String (input.rs 218) *)
  Definition de_string (t : Toml F) : Res string := match t with TString s => Ok s | _ => bad end.
  (** f64 (geometry.rs 35) *)
  Definition de_f64 (t : Toml F) : Res F := match t with TFloat x => Ok x | TInt z => Ok (nZ z) | _ => bad end.
  (** usize and u64 (input.rs 226, 246) *)
  Definition de_usize (t : Toml F) : Res nat := match t with TInt z => if 0 <=? z then Ok (Z.to_nat z) else bad | _ => bad end.
  (** u32 (parry.rs 164) *)
  Definition de_u32 (t : Toml F) : Res nat :=
    match t with TInt z => if (0 <=? z) && (z <? 2 ^ 32) then Ok (Z.to_nat z) else bad | _ => bad end.
  (** Vec (material.rs 25) *)
  Definition de_vec {A} (d : Toml F -> Res A) (t : Toml F) : Res (list A) :=
    match t with TArray l => mapM d l | _ => bad end.
  (** (f64, f64) (geometry.rs 271) *)
  Definition de_pair {A B} (d : Toml F -> Res A) (e : Toml F -> Res B) (t : Toml F) : Res (A * B) :=
    match t with TArray [a; b] => let! a := d a in let! b := e b in Ok (a, b) | _ => bad end.
  (** triples and arrays of three (particle.rs 40, geometry.rs 386, parry.rs 163) *)
  Definition de_triple {A} (d : Toml F -> Res A) (t : Toml F) : Res (A * A * A) :=
    match t with TArray [a; b; c] => let! a := d a in let! b := d b in let! c := d c in Ok (a, b, c) | _ => bad end.
  (** a required field of a structure (input.rs 218) *)
  Definition field {A} (key : string) (d : Toml F -> Res A) (t : Toml F) : Res A :=
    match t with
    | TTable l => match lookup key l with Some v => d v | None => bad end
    | _ => bad
    end.
  (** a field with #[serde(default = ...)] (input.rs 219-252, material.rs 28-37) *)
  Definition field_or {A} (key : string) (d : Toml F -> Res A) (default : A) (t : Toml F) : Res A :=
    match t with
    | TTable l => match lookup key l with Some v => d v | None => Ok default end
    | _ => bad
    end.
  (** an enum, externally tagged: the name of a unit variant, or a table with the name of a variant with fields
      (enums.rs 38, 85, 154) *)
  Definition de_enum {A} (units : list (string * A)) (variants : list (string * (Toml F -> Res A))) (t : Toml F) : Res A :=
    match t with
    | TString s => match lookup s units with Some a => Ok a | None => bad end
    | TTable [(s, v)] => match lookup s variants with Some d => d v | None => bad end
    | _ => bad
    end.

  (** enums.rs 15-21: untagged, so the first variant that fits *)
  Definition first_ok {A} (a b : Res A) : Res A := match a with Ok x => Ok x | _ => b end.
  Definition de_distribution (t : Toml F) : Res (Dist F) :=
    first_ok (let! min := field "min" de_f64 t in let! max := field "max" de_f64 t in Ok (UNIFORM min max))
   (first_ok (let! mean := field "mean" de_f64 t in let! std := field "std" de_f64 t in Ok (NORMAL mean std))
             (let! v := de_f64 t in Ok (POINT v))).
  (** enums.rs 38-49 *)
  Definition de_stopping : Toml F -> Res ElectronicStoppingMode :=
    de_enum [("INTERPOLATED", INTERPOLATED); ("LOW_ENERGY_LOCAL", LOW_ENERGY_LOCAL);
             ("LOW_ENERGY_NONLOCAL", LOW_ENERGY_NONLOCAL); ("LOW_ENERGY_EQUIPARTITION", LOW_ENERGY_EQUIPARTITION)] [].
  (** enums.rs 62-70 *)
  Definition de_calculation : Toml F -> Res SurfaceBindingCalculation :=
    de_enum [("INDIVIDUAL", SBC_INDIVIDUAL); ("TARGET", SBC_TARGET); ("AVERAGE", SBC_AVERAGE)] [].
  (** enums.rs 85-95 *)
  Definition de_surface : Toml F -> Res SurfaceBindingModel :=
    de_enum [("TARGET", SBM_TARGET); ("INDIVIDUAL", SBM_INDIVIDUAL); ("AVERAGE", SBM_AVERAGE)]
      [("ISOTROPIC", fun t => let! c := field "calculation" de_calculation t in Ok (ISOTROPIC c));
       ("PLANAR", fun t => let! c := field "calculation" de_calculation t in Ok (PLANAR c))].
  (** enums.rs 112-119 *)
  Definition de_bulk : Toml F -> Res BulkBindingModel :=
    de_enum [("INDIVIDUAL", BBM_INDIVIDUAL); ("AVERAGE", BBM_AVERAGE)] [].
  (** enums.rs 132-140 *)
  Definition de_mean_free_path : Toml F -> Res (MeanFreePathModel F) :=
    de_enum [("LIQUID", LIQUID); ("GASEOUS", GASEOUS)]
      [("THRESHOLD", fun t => let! d := field "density" de_f64 t in Ok (THRESHOLD d))].
  (** enums.rs 153-180 *)
  Definition de_potential : Toml F -> Res (InteractionPotential F) :=
    de_enum [("TRIDYN", TRIDYN); ("MOLIERE", MOLIERE); ("KR_C", KR_C); ("ZBL", ZBL); ("LENZ_JENSEN", LENZ_JENSEN); ("WW", WW)]
      [("LENNARD_JONES_12_6", fun t => let! s := field "sigma" de_f64 t in let! e := field "epsilon" de_f64 t in Ok (LENNARD_JONES_12_6 s e));
       ("LENNARD_JONES_65_6", fun t => let! s := field "sigma" de_f64 t in let! e := field "epsilon" de_f64 t in Ok (LENNARD_JONES_65_6 s e));
       ("MORSE", fun t => let! D := field "D" de_f64 t in let! a := field "alpha" de_f64 t in let! r0 := field "r0" de_f64 t in Ok (MORSE D a r0));
       ("COULOMB", fun t => let! a := field "Za" de_f64 t in let! b := field "Zb" de_f64 t in Ok (COULOMB a b));
       ("KRC_MORSE", fun t =>
          let! D := field "D" de_f64 t in let! a := field "alpha" de_f64 t in let! r0 := field "r0" de_f64 t in
          let! k := field "k" de_f64 t in let! x0 := field "x0" de_f64 t in Ok (KRC_MORSE D a r0 k x0));
       ("FOUR_EIGHT", fun t => let! a := field "alpha" de_f64 t in let! b := field "beta" de_f64 t in Ok (FOUR_EIGHT a b))].
  (** enums.rs 208-218 *)
  Definition de_scattering : Toml F -> Res ScatteringIntegral :=
    de_enum [("MENDENHALL_WELLER", MENDENHALL_WELLER); ("MAGIC", MAGIC); ("GAUSS_LEGENDRE", GAUSS_LEGENDRE)]
      [("GAUSS_MEHLER", fun t => let! n := field "n_points" de_usize t in Ok (GAUSS_MEHLER n))].
  (** enums.rs 238-246 *)
  Definition de_rootfinder : Toml F -> Res (Rootfinder F) :=
    de_enum [("DEFAULTNEWTON", DEFAULTNEWTON)]
      [("NEWTON", fun t => let! n := field "max_iterations" de_usize t in let! x := field "tolerance" de_f64 t in Ok (NEWTON n x));
       ("CPR", fun t =>
          let! n0 := field "n0" de_usize t in let! nmax := field "nmax" de_usize t in let! e := field "epsilon" de_f64 t in
          let! c := field "complex_threshold" de_f64 t in let! tr := field "truncation_threshold" de_f64 t in
          let! f := field "far_from_zero" de_f64 t in let! i := field "interval_limit" de_f64 t in
          let! d := field "derivative_free" de_bool t in Ok (CPR n0 nmax e c tr f i d));
       ("POLYNOMIAL", fun t => let! c := field "complex_threshold" de_f64 t in Ok (POLYNOMIAL c))].

  (** input.rs 214-253 (the build without the feature "distributions") with the defaults of input.rs 155-212 *)
  Definition read_options (t : Toml F) : Res (string * Options F) :=
    let! name := field "name" de_string t in
    let! track_trajectories := field_or "track_trajectories" de_bool false t in
    let! track_recoils := field_or "track_recoils" de_bool true t in
    let! track_recoil_trajectories := field_or "track_recoil_trajectories" de_bool false t in
    let! write_buffer_size := field_or "write_buffer_size" de_usize (Z.to_nat 8192) t in
    let! weak_collision_order := field_or "weak_collision_order" de_usize 0%nat t in
    let! suppress_deep_recoils := field_or "suppress_deep_recoils" de_bool false t in
    let! high_energy_free_flight_paths := field_or "high_energy_free_flight_paths" de_bool false t in
    let! electronic_stopping_mode := field_or "electronic_stopping_mode" de_stopping LOW_ENERGY_NONLOCAL t in
    let! mean_free_path_model := field_or "mean_free_path_model" de_mean_free_path LIQUID t in
    let! interaction_potential := field_or "interaction_potential" (de_vec (de_vec de_potential)) default_interaction_potential t in
    let! scattering_integral := field_or "scattering_integral" (de_vec (de_vec de_scattering)) default_scattering_integral t in
    let! root_finder := field_or "root_finder" (de_vec (de_vec de_rootfinder)) default_rootfinder t in
    let! num_threads := field_or "num_threads" de_usize 1%nat t in
    let! num_chunks := field_or "num_chunks" de_usize 1%nat t in
    let! use_hdf5 := field_or "use_hdf5" de_bool false t in
    let! track_displacements := field_or "track_displacements" de_bool false t in
    let! track_energy_losses := field_or "track_energy_losses" de_bool false t in
    Ok (name, mkOptions track_trajectories track_recoils track_recoil_trajectories write_buffer_size weak_collision_order
      suppress_deep_recoils high_energy_free_flight_paths electronic_stopping_mode mean_free_path_model interaction_potential
      scattering_integral root_finder num_threads num_chunks use_hdf5 track_displacements track_energy_losses).

  (** unit strings: input.rs 495-527, geometry.rs 52-65, material.rs 58-77; the unit is looked at
      where it is used, so an unknown one is no error here *)
  Definition length_unit_of (s : string) : LengthUnit F :=
    match lookup s [("MICRON", LU_MICRON); ("CM", LU_CM); ("MM", LU_MM); ("ANGSTROM", LU_ANGSTROM); ("NM", LU_NM); ("M", LU_M)] with
    | Some u => u | None => LU_other (parse s) end.
  Definition energy_unit_of (s : string) : EnergyUnit F :=
    match lookup s [("EV", EU_EV); ("J", EU_J); ("KEV", EU_KEV); ("MEV", EU_MEV)] with
    | Some u => u | None => EU_other (parse s) end.
  Definition mass_unit_of (s : string) : MassUnit F :=
    match lookup s [("AMU", MU_AMU); ("KG", MU_KG)] with
    | Some u => u | None => MU_other (parse s) end.
  Definition de_length_unit (t : Toml F) : Res (LengthUnit F) := let! s := de_string t in Ok (length_unit_of s).
  Definition de_energy_unit (t : Toml F) : Res (EnergyUnit F) := let! s := de_string t in Ok (energy_unit_of s).
  Definition de_mass_unit (t : Toml F) : Res (MassUnit F) := let! s := de_string t in Ok (mass_unit_of s).

  (** material.rs 3-38 *)
  Definition read_material (t : Toml F) : Res (MaterialParameters F) :=
    let! energy_unit := field "energy_unit" de_energy_unit t in
    let! mass_unit := field "mass_unit" de_mass_unit t in
    let! Eb := field "Eb" (de_vec de_f64) t in
    let! Es := field "Es" (de_vec de_f64) t in
    let! Ec := field "Ec" (de_vec de_f64) t in
    let! Ed := field_or "Ed" (de_vec de_f64) [nZ 0] t in
    let! Z := field "Z" (de_vec de_f64) t in
    let! m := field "m" (de_vec de_f64) t in
    let! interaction_index := field_or "interaction_index" (de_vec de_usize) [0%nat] t in
    let! surface := field_or "surface_binding_model" de_surface SBM_TARGET t in
    let! bulk := field_or "bulk_binding_model" de_bulk BBM_INDIVIDUAL t in
    Ok (mkMaterialParameters energy_unit mass_unit Eb Es Ec Ed Z m interaction_index surface bulk).

  (** particle.rs 5-7, 28-44 (the build without the feature "hdf5_input", which also requires a file name) *)
  Definition read_particles (t : Toml F) : Res (ParticleParameters F) :=
    let! length_unit := field "length_unit" de_length_unit t in
    let! energy_unit := field "energy_unit" de_energy_unit t in
    let! mass_unit := field "mass_unit" de_mass_unit t in
    let! N := field "N" (de_vec de_usize) t in
    let! m := field "m" (de_vec de_f64) t in
    let! Z := field "Z" (de_vec de_f64) t in
    let! E := field "E" (de_vec de_distribution) t in
    let! Ec := field "Ec" (de_vec de_f64) t in
    let! Es := field "Es" (de_vec de_f64) t in
    let! pos := field "pos" (de_vec (de_triple de_distribution)) t in
    let! dir := field "dir" (de_vec (de_triple de_distribution)) t in
    let! interaction_index := field_or "interaction_index" (de_vec de_usize) [0%nat] t in
    Ok (mkParticleParameters length_unit energy_unit mass_unit N m Z E Ec Es pos dir interaction_index).

  (** geometry.rs 31-36 *)
  Definition read_mesh0d (t : Toml F) : Res (Mesh0DInput F) :=
    let! length_unit := field "length_unit" de_length_unit t in
    let! densities := field "densities" (de_vec de_f64) t in
    let! ck := field "electronic_stopping_correction_factor" de_f64 t in
    Ok (mkMesh0DInput length_unit densities ck).
  (** geometry.rs 113-119 *)
  Definition read_mesh1d (t : Toml F) : Res (Mesh1DInput F) :=
    let! length_unit := field "length_unit" de_length_unit t in
    let! thicknesses := field "layer_thicknesses" (de_vec de_f64) t in
    let! densities := field "densities" (de_vec (de_vec de_f64)) t in
    let! cks := field "electronic_stopping_correction_factors" (de_vec de_f64) t in
    Ok (mkMesh1DInput length_unit thicknesses densities cks).
  (** geometry.rs 268-275 *)
  Definition read_homogeneous2d (t : Toml F) : Res (HomogeneousMesh2DInput F) :=
    let! length_unit := field "length_unit" de_length_unit t in
    let! points := field "points" (de_vec (de_pair de_f64 de_f64)) t in
    let! boundary := field "simulation_boundary_points" (de_vec (de_pair de_f64 de_f64)) t in
    let! densities := field "densities" (de_vec de_f64) t in
    let! ck := field "electronic_stopping_correction_factor" de_f64 t in
    Ok (mkHM2Input length_unit points boundary densities ck).
  (** geometry.rs 383-393 *)
  Definition read_mesh2d (t : Toml F) : Res (Mesh2DInput F) :=
    let! length_unit := field "length_unit" de_length_unit t in
    let! triangles := field "triangles" (de_vec (de_triple de_usize)) t in
    let! points := field "points" (de_vec (de_pair de_f64 de_f64)) t in
    let! boundary := field "boundary" (de_vec de_usize) t in
    let! simulation_boundary := field "simulation_boundary_points" (de_vec (de_pair de_f64 de_f64)) t in
    let! densities := field "densities" (de_vec (de_vec de_f64)) t in
    let! cks := field "electronic_stopping_correction_factors" (de_vec de_f64) t in
    let! thickness := field "energy_barrier_thickness" de_f64 t in
    Ok (mkMesh2DInput length_unit triangles points boundary simulation_boundary densities cks thickness).
  (** sphere.rs 31-37, parry.rs 35-41 *)
  Definition read_sphere (t : Toml F) : Res (SphereInput F) :=
    let! length_unit := field "length_unit" de_length_unit t in
    let! radius := field "radius" de_f64 t in
    let! densities := field "densities" (de_vec de_f64) t in
    let! ck := field "electronic_stopping_correction_factor" de_f64 t in
    Ok (mkSphereInput length_unit radius densities ck).
  (** parry.rs 158-165 *)
  Definition read_trimesh (t : Toml F) : Res (ParryTriMeshInput F) :=
    let! length_unit := field "length_unit" de_length_unit t in
    let! densities := field "densities" (de_vec de_f64) t in
    let! ck := field "electronic_stopping_correction_factor" de_f64 t in
    let! vertices := field "vertices" (de_vec (de_triple de_f64)) t in
    let! indices := field "indices" (de_vec (de_triple de_u32)) t in
    Ok (mkParryTriMeshInput length_unit densities ck vertices indices).

  (** input.rs 17-52 (Input2D), 54-87, 89-122, 124-157, sphere.rs 4-29, parry.rs 8-33, 131-156: the four
      sections; [read_geometry] and [build_geometry] (T::new) are those of the geometry of the run *)
  Definition read_file {G} (read_geometry : Toml F -> Res G) (build_geometry : G -> Res (Geometry F)) (t : Toml F)
      : Res (string * InputData F) :=
    let! (name, options) := field "options" read_options t in
    let! material := field "material_parameters" read_material t in
    let! particles := field "particle_parameters" read_particles t in
    let! geometry := field "geometry_input" read_geometry t in
    Ok (name, mkInput options particles material (build_geometry geometry)).
  (** input.rs 377-685 from the document: parse, then [input] *)
  Definition input_file {G} (read_geometry : Toml F -> Res G) (build_geometry : G -> Res (Geometry F))
      (ft : Features F) (normal_ok : F -> bool) (t : Toml F)
      : M F (list (ParticleInput F) * Material F * Options F * OutputUnits F) :=
    do! r := mlift (read_file read_geometry build_geometry t) in
    input ft normal_ok (snd r).
End Toml.
