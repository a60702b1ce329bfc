(** * PropertiesTransport.v - theorems about whole runs of single_ion_bca.

    They hold for every number type [F] with operations [NF : Num F] (no
    assumption on the arithmetic), hence for IEEE doubles with rounding, NaN
    and infinities, for every material, option set, build, random stream and
    amount of fuel. *)
From Coq Require Import ZArith List Bool Lia Floats.SpecFloat.
From Verif Require Import Num NumSF ModelTypes ModelParticle ModelGeometry ModelMaterial ModelBca Spec
  ProofsBca ProofsPanic Toy.
Import ListNotations.
Open Scope nat_scope.

(** The concrete run of Toy.v: an ion and two recoils, several steps each. *)
Example toy_runs : single_ion_bca None toy_material toy_options 10 toy_ion toy_rng 0 = Ok (toy_out, toy_count).
Proof. vm_compute. reflexivity. Qed.
Example toy_is_not_trivial :
  length toy_out = 3 /\ map p_incident toy_out = [true; false; false] /\
  map p_stopped toy_out = [true; true; true] /\
  map (fun p => length (p_trajectory p)) toy_out = [3; 1; 2].
Proof. vm_compute. repeat split. Qed.

(** C01 *)
Theorem C01_every_returned_particle_is_finished :
  forall (F : Type) (NF : Num F) (build : Build F) (mat : Material F) (options : Options F)
         (fuel : nat) (ion : Particle F) (rng : Rng F) (n : nat) (out : list (Particle F)) (n' : nat),
    single_ion_bca build mat options fuel ion rng n = Ok (out, n') ->
    Forall (fun p => came_to_rest mat p \/ escaped mat p) out.
Proof. intros F NF. exact run_finished. Qed.
Print Assumptions C01_every_returned_particle_is_finished.
Example C01_applies : Forall (fun p => came_to_rest toy_material p \/ escaped toy_material p) toy_out.
Proof. exact (C01_every_returned_particle_is_finished _ _ _ _ _ _ _ _ _ _ _ toy_runs). Qed.

(** C02 *)
Theorem C02_ion_first_with_identity :
  forall (F : Type) (NF : Num F) (build : Build F) (mat : Material F) (options : Options F)
         (fuel : nat) (ion : Particle F) (rng : Rng F) (n : nat) (out : list (Particle F)) (n' : nat),
    single_ion_bca build mat options fuel ion rng n = Ok (out, n') ->
    exists ion' recoils, out = ion' :: recoils /\ same_identity ion ion' /\
      Forall (fun r => p_incident r = false) recoils.
Proof. intros F NF. exact run_first. Qed.
Print Assumptions C02_ion_first_with_identity.

(** C03 *)
Theorem C03_recoils_come_from_one_species_and_inherit :
  forall (F : Type) (NF : Num F) (build : Build F) (mat : Material F) (options : Options F)
         (fuel : nat) (ion : Particle F) (rng : Rng F) (n : nat) (out : list (Particle F)) (n' : nat),
    single_ion_bca build mat options fuel ion rng n = Ok (out, n') ->
    Forall (recoil_of mat options ion) (tl out).
Proof. intros F NF. exact run_recoils. Qed.
Print Assumptions C03_recoils_come_from_one_species_and_inherit.

(** C04 *)
Theorem C04_no_recoil_tracking_one_particle :
  forall (F : Type) (NF : Num F) (build : Build F) (mat : Material F) (options : Options F)
         (fuel : nat) (ion : Particle F) (rng : Rng F) (n : nat) (out : list (Particle F)) (n' : nat),
    o_track_recoils options = false ->
    single_ion_bca build mat options fuel ion rng n = Ok (out, n') ->
    exists ion', out = [ion'] /\ same_identity ion ion'.
Proof. intros F NF. exact run_no_recoils. Qed.
Print Assumptions C04_no_recoil_tracking_one_particle.
Definition quiet_options : Options spec_float :=
  {| o_track_trajectories := false; o_track_recoils := false; o_track_recoil_trajectories := false;
     o_write_buffer_size := 8; o_weak_collision_order := 0; o_suppress_deep_recoils := false;
     o_high_energy_free_flight_paths := false; o_electronic_stopping_mode := LOW_ENERGY_NONLOCAL;
     o_mean_free_path_model := LIQUID; o_interaction_potential := o_interaction_potential toy_options;
     o_scattering_integral := o_scattering_integral toy_options; o_root_finder := o_root_finder toy_options;
     o_num_threads := 1; o_num_chunks := 1; o_use_hdf5 := false; o_track_displacements := false;
     o_track_energy_losses := false |}.
Example C04_applies : exists out n',
  single_ion_bca None toy_material quiet_options 10 toy_ion toy_rng 0 = Ok (out, n') /\ length out = 1.
Proof. eexists _, _. split; [vm_compute; reflexivity|reflexivity]. Qed.

(** C05: the code's own answer to "hand back a finished particle" is a panic,
    for every finished particle. *)
Theorem C05_refuted_finished_particles_panic :
  forall (F : Type) (NF : Num F) (build : Build F) (mat : Material F) (options : Options F)
         (fuel : nat) (ion : Particle F) (rng : Rng F) (n : nat),
    p_stopped ion = true \/ p_left ion = true -> 2 <= fuel ->
    single_ion_bca build mat options fuel ion rng n = Panic UnwrapNone.
Proof.
  intros F NF build mat options fuel ion rng n H Hf.
  destruct fuel as [|[|fuel]]; [lia|lia|]. apply single_finished_panics.
  unfold active. destruct H; intros [? ?]; congruence.
Qed.
Print Assumptions C05_refuted_finished_particles_panic.
(** What remains true: that panic (popping the empty particle stack) never
    happens for an unfinished particle, in any of the code's geometries. *)
Theorem C05_unfinished_particles_never_empty_the_stack_partial :
  forall (F : Type) (NF : Num F) (mat : Material F) (options : Options F)
         (fuel : nat) (ion : Particle F) (rng : Rng F) (n : nat),
    built_in (mat_geometry mat) -> p_stopped ion = false -> p_left ion = false ->
    single_ion_bca None mat options fuel ion rng n <> Panic UnwrapNone.
Proof. intros F NF mat options fuel ion rng n Hb Hs Hl. apply built_in_no_pop; [exact Hb|split; assumption]. Qed.
Print Assumptions C05_unfinished_particles_never_empty_the_stack_partial.
Example C05_applies : built_in (mat_geometry toy_material) /\ p_stopped toy_ion = false /\ p_left toy_ion = false.
Proof. split; [left; eexists; reflexivity|split; vm_compute; reflexivity]. Qed.

(** C06 *)
Theorem C06_histories_append_only_and_end_at_final_point :
  forall (F : Type) (NF : Num F) (build : Build F) (mat : Material F) (options : Options F)
         (fuel : nat) (ion : Particle F) (rng : Rng F) (n : nat) (out : list (Particle F)) (n' : nat),
    single_ion_bca build mat options fuel ion rng n = Ok (out, n') ->
    (forall ion', hd_error out = Some ion' -> history_extends options ion ion') /\
    Forall (fun r => exists r0, newborn r0 /\ same_identity r0 r /\ history_extends options r0 r) (tl out) /\
    Forall (fun p => ends_at_final_point p /\ losses_end_at_final_point options p) out.
Proof. intros F NF. exact run_histories. Qed.
Print Assumptions C06_histories_append_only_and_end_at_final_point.
