(** * Toy.v - a concrete run of the model, used as evidence that the
    hypotheses of the theorems about runs are satisfiable.

    Binary64 arithmetic with the crude [toy_libm]; a half-space target of one
    species, hit by a 100 eV ion.  The run takes several steps and makes a
    recoil. *)
From Coq Require Import ZArith List Bool Floats.SpecFloat.
From Verif Require Import Num NumSF ModelTypes ModelConsts ModelParticle ModelInteractions ModelGeometry
  ModelMaterial ModelBca.
Import ListNotations.
Open Scope Z_scope.

#[export] Instance toy_num : Num spec_float := NumSF toy_libm.

Definition toy_options : Options spec_float := {|
  o_track_trajectories := true; o_track_recoils := true; o_track_recoil_trajectories := true;
  o_write_buffer_size := 8%nat; o_weak_collision_order := 0%nat; o_suppress_deep_recoils := false;
  o_high_energy_free_flight_paths := false; o_electronic_stopping_mode := LOW_ENERGY_NONLOCAL;
  o_mean_free_path_model := LIQUID;
  o_interaction_potential := [[COULOMB (nZ 1) (nZ 2)]];
  o_scattering_integral := [[GAUSS_MEHLER 2]];
  o_root_finder := [[DEFAULTNEWTON]];
  o_num_threads := 1%nat; o_num_chunks := 1%nat; o_use_hdf5 := false;
  o_track_displacements := true; o_track_energy_losses := true |}.
Definition toy_mesh : Mesh0D spec_float := {|
  m0_densities := [nZ 1]; m0_concentrations := [nZ 1]; m0_ck := nZ 1;
  m0_energy_barrier_thickness := nlit 11 (-1) |}.
Definition toy_material : Material spec_float := {|
  mat_m := [nZ 4 *! cAMU]; mat_Z := [nZ 2]; mat_Eb := [nZ 0]; mat_Es := [nZ 2 *! cEV]; mat_Ec := [nZ 20 *! cEV];
  mat_Ed := [nZ 25 *! cEV]; mat_interaction_index := [0%nat];
  mat_geometry := mesh0d_geometry toy_mesh;
  mat_surface_binding_model := SBM_TARGET; mat_bulk_binding_model := BBM_AVERAGE |}%num.
Definition toy_input : ParticleInput spec_float := {|
  pi_m := nZ 4 *! cAMU; pi_Z := nZ 1; pi_E := nZ 100 *! cEV; pi_Ec := nZ 60 *! cEV; pi_Es := nZ 1 *! cEV;
  pi_x := nlit 5 (-1); pi_y := nZ 0; pi_z := nZ 0; pi_ux := nlit 6 (-1); pi_uy := nlit 8 (-1); pi_uz := nZ 0;
  pi_interaction_index := 0%nat; pi_weight := nZ 1; pi_tag := 0 |}%num.
Definition toy_rng : Rng spec_float := fun _ => nlit 5 (-1).

Definition toy_ion : Particle spec_float :=
  match from_input toy_input toy_options with
  | Ok p => p
  | _ => particle_new (nZ 0) (nZ 0) (nZ 0) (nZ 0) (nZ 0) (nZ 0) (nZ 0) (nZ 0) (nZ 0) (nZ 0) (nZ 0) (nZ 0) true true 0%nat
  end.
Lemma toy_ion_accepted : from_input toy_input toy_options = Ok toy_ion.
Proof. vm_compute. reflexivity. Qed.

Definition toy_result : Res (list (Particle spec_float) * nat) := single_ion_bca None toy_material toy_options 10%nat toy_ion toy_rng 0%nat.
Definition fst_ok {A B} (default : A) (r : Res (A * B)) : A := match r with Ok (a, _) => a | _ => default end.
Definition snd_ok {A B} (default : B) (r : Res (A * B)) : B := match r with Ok (_, b) => b | _ => default end.
Definition toy_out : list (Particle spec_float) := fst_ok [] toy_result.
Definition toy_count : nat := snd_ok 0%nat toy_result.
