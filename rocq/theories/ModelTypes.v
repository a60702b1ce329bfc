(** * ModelTypes.v - the data types of the code.
    Generated by /verif/tools/gen_types.py (record setters are mechanical). *)
From Coq Require Import ZArith List Bool.
From Verif Require Import Num.
Import ListNotations.

Section Types.
  Context {F : Type}.

  (** structs.rs 1-7 *)
  Record Vector : Type := mkV { vx : F; vy : F; vz : F }.

  (** structs.rs 47-54 *)
  Record TrajectoryElement : Type := mkTE { te_E : F; te_x : F; te_y : F; te_z : F }.

  (** structs.rs 68-76 *)
  Record EnergyLoss : Type := mkEL { el_En : F; el_Ee : F; el_x : F; el_y : F; el_z : F }.

  (** particle.rs 67-96 *)
  Record Particle : Type := mkParticle {
    p_m : F;
    p_Z : F;
    p_E : F;
    p_Ec : F;
    p_Es : F;
    p_Ed : F;
    p_pos : Vector;
    p_dir : Vector;
    p_pos_old : Vector;
    p_dir_old : Vector;
    p_pos_origin : Vector;
    p_energy_origin : F;
    p_asymptotic_deflection : F;
    p_stopped : bool;
    p_left : bool;
    p_incident : bool;
    p_first_step : bool;
    p_trajectory : list TrajectoryElement;
    p_energies : list EnergyLoss;
    p_track_trajectories : bool;
    p_number_collision_events : nat;
    p_backreflected : bool;
    p_interaction_index : nat;
    p_weight : F;
    p_tag : Z;
    p_tracked_vector : Vector
  }.

  Definition set_p_E (v : F) (p : Particle) : Particle :=
    mkParticle (p_m p) (p_Z p) v (p_Ec p) (p_Es p) (p_Ed p) (p_pos p) (p_dir p) (p_pos_old p) (p_dir_old p) (p_pos_origin p) (p_energy_origin p) (p_asymptotic_deflection p) (p_stopped p) (p_left p) (p_incident p) (p_first_step p) (p_trajectory p) (p_energies p) (p_track_trajectories p) (p_number_collision_events p) (p_backreflected p) (p_interaction_index p) (p_weight p) (p_tag p) (p_tracked_vector p).
  Definition set_p_pos (v : Vector) (p : Particle) : Particle :=
    mkParticle (p_m p) (p_Z p) (p_E p) (p_Ec p) (p_Es p) (p_Ed p) v (p_dir p) (p_pos_old p) (p_dir_old p) (p_pos_origin p) (p_energy_origin p) (p_asymptotic_deflection p) (p_stopped p) (p_left p) (p_incident p) (p_first_step p) (p_trajectory p) (p_energies p) (p_track_trajectories p) (p_number_collision_events p) (p_backreflected p) (p_interaction_index p) (p_weight p) (p_tag p) (p_tracked_vector p).
  Definition set_p_dir (v : Vector) (p : Particle) : Particle :=
    mkParticle (p_m p) (p_Z p) (p_E p) (p_Ec p) (p_Es p) (p_Ed p) (p_pos p) v (p_pos_old p) (p_dir_old p) (p_pos_origin p) (p_energy_origin p) (p_asymptotic_deflection p) (p_stopped p) (p_left p) (p_incident p) (p_first_step p) (p_trajectory p) (p_energies p) (p_track_trajectories p) (p_number_collision_events p) (p_backreflected p) (p_interaction_index p) (p_weight p) (p_tag p) (p_tracked_vector p).
  Definition set_p_pos_old (v : Vector) (p : Particle) : Particle :=
    mkParticle (p_m p) (p_Z p) (p_E p) (p_Ec p) (p_Es p) (p_Ed p) (p_pos p) (p_dir p) v (p_dir_old p) (p_pos_origin p) (p_energy_origin p) (p_asymptotic_deflection p) (p_stopped p) (p_left p) (p_incident p) (p_first_step p) (p_trajectory p) (p_energies p) (p_track_trajectories p) (p_number_collision_events p) (p_backreflected p) (p_interaction_index p) (p_weight p) (p_tag p) (p_tracked_vector p).
  Definition set_p_dir_old (v : Vector) (p : Particle) : Particle :=
    mkParticle (p_m p) (p_Z p) (p_E p) (p_Ec p) (p_Es p) (p_Ed p) (p_pos p) (p_dir p) (p_pos_old p) v (p_pos_origin p) (p_energy_origin p) (p_asymptotic_deflection p) (p_stopped p) (p_left p) (p_incident p) (p_first_step p) (p_trajectory p) (p_energies p) (p_track_trajectories p) (p_number_collision_events p) (p_backreflected p) (p_interaction_index p) (p_weight p) (p_tag p) (p_tracked_vector p).
  Definition set_p_energy_origin (v : F) (p : Particle) : Particle :=
    mkParticle (p_m p) (p_Z p) (p_E p) (p_Ec p) (p_Es p) (p_Ed p) (p_pos p) (p_dir p) (p_pos_old p) (p_dir_old p) (p_pos_origin p) v (p_asymptotic_deflection p) (p_stopped p) (p_left p) (p_incident p) (p_first_step p) (p_trajectory p) (p_energies p) (p_track_trajectories p) (p_number_collision_events p) (p_backreflected p) (p_interaction_index p) (p_weight p) (p_tag p) (p_tracked_vector p).
  Definition set_p_asymptotic_deflection (v : F) (p : Particle) : Particle :=
    mkParticle (p_m p) (p_Z p) (p_E p) (p_Ec p) (p_Es p) (p_Ed p) (p_pos p) (p_dir p) (p_pos_old p) (p_dir_old p) (p_pos_origin p) (p_energy_origin p) v (p_stopped p) (p_left p) (p_incident p) (p_first_step p) (p_trajectory p) (p_energies p) (p_track_trajectories p) (p_number_collision_events p) (p_backreflected p) (p_interaction_index p) (p_weight p) (p_tag p) (p_tracked_vector p).
  Definition set_p_stopped (v : bool) (p : Particle) : Particle :=
    mkParticle (p_m p) (p_Z p) (p_E p) (p_Ec p) (p_Es p) (p_Ed p) (p_pos p) (p_dir p) (p_pos_old p) (p_dir_old p) (p_pos_origin p) (p_energy_origin p) (p_asymptotic_deflection p) v (p_left p) (p_incident p) (p_first_step p) (p_trajectory p) (p_energies p) (p_track_trajectories p) (p_number_collision_events p) (p_backreflected p) (p_interaction_index p) (p_weight p) (p_tag p) (p_tracked_vector p).
  Definition set_p_left (v : bool) (p : Particle) : Particle :=
    mkParticle (p_m p) (p_Z p) (p_E p) (p_Ec p) (p_Es p) (p_Ed p) (p_pos p) (p_dir p) (p_pos_old p) (p_dir_old p) (p_pos_origin p) (p_energy_origin p) (p_asymptotic_deflection p) (p_stopped p) v (p_incident p) (p_first_step p) (p_trajectory p) (p_energies p) (p_track_trajectories p) (p_number_collision_events p) (p_backreflected p) (p_interaction_index p) (p_weight p) (p_tag p) (p_tracked_vector p).
  Definition set_p_first_step (v : bool) (p : Particle) : Particle :=
    mkParticle (p_m p) (p_Z p) (p_E p) (p_Ec p) (p_Es p) (p_Ed p) (p_pos p) (p_dir p) (p_pos_old p) (p_dir_old p) (p_pos_origin p) (p_energy_origin p) (p_asymptotic_deflection p) (p_stopped p) (p_left p) (p_incident p) v (p_trajectory p) (p_energies p) (p_track_trajectories p) (p_number_collision_events p) (p_backreflected p) (p_interaction_index p) (p_weight p) (p_tag p) (p_tracked_vector p).
  Definition set_p_trajectory (v : list TrajectoryElement) (p : Particle) : Particle :=
    mkParticle (p_m p) (p_Z p) (p_E p) (p_Ec p) (p_Es p) (p_Ed p) (p_pos p) (p_dir p) (p_pos_old p) (p_dir_old p) (p_pos_origin p) (p_energy_origin p) (p_asymptotic_deflection p) (p_stopped p) (p_left p) (p_incident p) (p_first_step p) v (p_energies p) (p_track_trajectories p) (p_number_collision_events p) (p_backreflected p) (p_interaction_index p) (p_weight p) (p_tag p) (p_tracked_vector p).
  Definition set_p_energies (v : list EnergyLoss) (p : Particle) : Particle :=
    mkParticle (p_m p) (p_Z p) (p_E p) (p_Ec p) (p_Es p) (p_Ed p) (p_pos p) (p_dir p) (p_pos_old p) (p_dir_old p) (p_pos_origin p) (p_energy_origin p) (p_asymptotic_deflection p) (p_stopped p) (p_left p) (p_incident p) (p_first_step p) (p_trajectory p) v (p_track_trajectories p) (p_number_collision_events p) (p_backreflected p) (p_interaction_index p) (p_weight p) (p_tag p) (p_tracked_vector p).
  Definition set_p_number_collision_events (v : nat) (p : Particle) : Particle :=
    mkParticle (p_m p) (p_Z p) (p_E p) (p_Ec p) (p_Es p) (p_Ed p) (p_pos p) (p_dir p) (p_pos_old p) (p_dir_old p) (p_pos_origin p) (p_energy_origin p) (p_asymptotic_deflection p) (p_stopped p) (p_left p) (p_incident p) (p_first_step p) (p_trajectory p) (p_energies p) (p_track_trajectories p) v (p_backreflected p) (p_interaction_index p) (p_weight p) (p_tag p) (p_tracked_vector p).
  Definition set_p_backreflected (v : bool) (p : Particle) : Particle :=
    mkParticle (p_m p) (p_Z p) (p_E p) (p_Ec p) (p_Es p) (p_Ed p) (p_pos p) (p_dir p) (p_pos_old p) (p_dir_old p) (p_pos_origin p) (p_energy_origin p) (p_asymptotic_deflection p) (p_stopped p) (p_left p) (p_incident p) (p_first_step p) (p_trajectory p) (p_energies p) (p_track_trajectories p) (p_number_collision_events p) v (p_interaction_index p) (p_weight p) (p_tag p) (p_tracked_vector p).
  Definition set_p_weight (v : F) (p : Particle) : Particle :=
    mkParticle (p_m p) (p_Z p) (p_E p) (p_Ec p) (p_Es p) (p_Ed p) (p_pos p) (p_dir p) (p_pos_old p) (p_dir_old p) (p_pos_origin p) (p_energy_origin p) (p_asymptotic_deflection p) (p_stopped p) (p_left p) (p_incident p) (p_first_step p) (p_trajectory p) (p_energies p) (p_track_trajectories p) (p_number_collision_events p) (p_backreflected p) (p_interaction_index p) v (p_tag p) (p_tracked_vector p).
  Definition set_p_tag (v : Z) (p : Particle) : Particle :=
    mkParticle (p_m p) (p_Z p) (p_E p) (p_Ec p) (p_Es p) (p_Ed p) (p_pos p) (p_dir p) (p_pos_old p) (p_dir_old p) (p_pos_origin p) (p_energy_origin p) (p_asymptotic_deflection p) (p_stopped p) (p_left p) (p_incident p) (p_first_step p) (p_trajectory p) (p_energies p) (p_track_trajectories p) (p_number_collision_events p) (p_backreflected p) (p_interaction_index p) (p_weight p) v (p_tracked_vector p).
  Definition set_p_tracked_vector (v : Vector) (p : Particle) : Particle :=
    mkParticle (p_m p) (p_Z p) (p_E p) (p_Ec p) (p_Es p) (p_Ed p) (p_pos p) (p_dir p) (p_pos_old p) (p_dir_old p) (p_pos_origin p) (p_energy_origin p) (p_asymptotic_deflection p) (p_stopped p) (p_left p) (p_incident p) (p_first_step p) (p_trajectory p) (p_energies p) (p_track_trajectories p) (p_number_collision_events p) (p_backreflected p) (p_interaction_index p) (p_weight p) (p_tag p) v.

  (** particle.rs 46-65 *)
  Record ParticleInput : Type := mkPI {
    pi_m : F; pi_Z : F; pi_E : F; pi_Ec : F; pi_Es : F;
    pi_x : F; pi_y : F; pi_z : F; pi_ux : F; pi_uy : F; pi_uz : F;
    pi_interaction_index : nat; pi_weight : F; pi_tag : Z }.

  (** enums.rs 38-49 *)
  Inductive ElectronicStoppingMode : Type :=
  | INTERPOLATED | LOW_ENERGY_LOCAL | LOW_ENERGY_NONLOCAL | LOW_ENERGY_EQUIPARTITION.

  (** enums.rs 62-69 *)
  Inductive SurfaceBindingCalculation : Type := SBC_INDIVIDUAL | SBC_TARGET | SBC_AVERAGE.

  (** enums.rs 85-94 *)
  Inductive SurfaceBindingModel : Type :=
  | ISOTROPIC (c : SurfaceBindingCalculation)
  | PLANAR (c : SurfaceBindingCalculation)
  | SBM_TARGET | SBM_INDIVIDUAL | SBM_AVERAGE.

  (** enums.rs 112-119 *)
  Inductive BulkBindingModel : Type := BBM_INDIVIDUAL | BBM_AVERAGE.

  (** enums.rs 133-142 *)
  Inductive MeanFreePathModel : Type := LIQUID | GASEOUS | THRESHOLD (density : F).

  (** enums.rs 154-182 *)
  Inductive InteractionPotential : Type :=
  | TRIDYN | MOLIERE | KR_C | ZBL | LENZ_JENSEN
  | LENNARD_JONES_12_6 (sigma epsilon : F)
  | LENNARD_JONES_65_6 (sigma epsilon : F)
  | MORSE (D alpha r0 : F)
  | WW
  | COULOMB (Za Zb : F)
  | KRC_MORSE (D alpha r0 k x0 : F)
  | FOUR_EIGHT (alpha beta : F).

  (** enums.rs 208-217 *)
  Inductive ScatteringIntegral : Type :=
  | MENDENHALL_WELLER | MAGIC | GAUSS_MEHLER (n_points : nat) | GAUSS_LEGENDRE.

  (** enums.rs 238-245 *)
  Inductive Rootfinder : Type :=
  | NEWTON (max_iterations : nat) (tolerance : F)
  | CPR (n0 nmax : nat) (epsilon complex_threshold truncation_threshold far_from_zero interval_limit : F) (derivative_free : bool)
  | POLYNOMIAL (complex_threshold : F)
  | DEFAULTNEWTON.

  (** input.rs 214-253.  [name] (a file-name prefix) is not modelled; the
      histogram fields of the "distributions" build are in ModelOutput.v. *)
  Record Options : Type := mkOptions {
    o_track_trajectories : bool;
    o_track_recoils : bool;
    o_track_recoil_trajectories : bool;
    o_write_buffer_size : nat;
    o_weak_collision_order : nat;
    o_suppress_deep_recoils : bool;
    o_high_energy_free_flight_paths : bool;
    o_electronic_stopping_mode : ElectronicStoppingMode;
    o_mean_free_path_model : MeanFreePathModel;
    o_interaction_potential : list (list InteractionPotential);
    o_scattering_integral : list (list ScatteringIntegral);
    o_root_finder : list (list Rootfinder);
    o_num_threads : nat;
    o_num_chunks : nat;
    o_use_hdf5 : bool;
    o_track_displacements : bool;
    o_track_energy_losses : bool }.

  (** geometry.rs 8-21: the Geometry trait, as a record of its methods.
      The three [inside] predicates and the getters can panic for some
      implementations (Mesh1D/Mesh2D getters, Mesh2D barrier test). *)
  Record Geometry : Type := mkGeometry {
    g_get_densities : F -> F -> F -> Res (list F);
    g_get_ck : F -> F -> F -> Res F;
    g_get_total_density : F -> F -> F -> Res F;
    g_get_concentrations : F -> F -> F -> Res (list F);
    g_inside : F -> F -> F -> bool;
    g_inside_simulation_boundary : F -> F -> F -> bool;
    g_inside_energy_barrier : F -> F -> F -> Res bool;
    g_closest_point : F -> F -> F -> Res (F * F * F) }.

  (** material.rs 41-52 *)
  Record Material : Type := mkMaterial {
    mat_m : list F; mat_Z : list F; mat_Eb : list F; mat_Es : list F;
    mat_Ec : list F; mat_Ed : list F; mat_interaction_index : list nat;
    mat_geometry : Geometry;
    mat_surface_binding_model : SurfaceBindingModel;
    mat_bulk_binding_model : BulkBindingModel }.

  (** bca.rs 7-11 *)
  Record BinaryCollisionGeometry : Type := mkBCG {
    bcg_phi_azimuthal : F; bcg_impact_parameter : F; bcg_mfp : F }.

  (** bca.rs 32-39 *)
  Record BinaryCollisionResult : Type := mkBCR {
    bcr_theta : F; bcr_psi : F; bcr_psi_recoil : F; bcr_recoil_energy : F;
    bcr_asymptotic_deflection : F; bcr_normalized_distance_of_closest_approach : F }.

  (** output.rs 4-8 *)
  Record OutputUnits : Type := mkOU { ou_length_unit : F; ou_energy_unit : F; ou_mass_unit : F }.
End Types.
Arguments Vector F : clear implicits.
Arguments TrajectoryElement F : clear implicits.
Arguments EnergyLoss F : clear implicits.
Arguments Particle F : clear implicits.
Arguments ParticleInput F : clear implicits.
Arguments MeanFreePathModel F : clear implicits.
Arguments InteractionPotential F : clear implicits.
Arguments Rootfinder F : clear implicits.
Arguments Options F : clear implicits.
Arguments Geometry F : clear implicits.
Arguments Material F : clear implicits.
Arguments BinaryCollisionGeometry F : clear implicits.
Arguments BinaryCollisionResult F : clear implicits.
Arguments OutputUnits F : clear implicits.
