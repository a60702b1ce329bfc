(** * ToyFlight.v - 1 MeV helium in copper in binary64, high-energy free flight
    paths, electronic stopping correction factor 1/2 *)
From Coq Require Import ZArith List Bool Floats.SpecFloat.
From Verif Require Import Num NumSF ToyLibm ModelTypes ModelConsts ModelParticle ModelGeometry ModelMaterial ModelBca ToyRun ToyLoss.
Import ListNotations.
Open Scope Z_scope.
Open Scope num_scope.
#[local] Existing Instance series_num.

Definition flight_options : Options spec_float := {|
  o_track_trajectories := true; o_track_recoils := false; o_track_recoil_trajectories := false;
  o_write_buffer_size := 8%nat; o_weak_collision_order := 0%nat; o_suppress_deep_recoils := false;
  o_high_energy_free_flight_paths := true; o_electronic_stopping_mode := INTERPOLATED;
  o_mean_free_path_model := LIQUID;
  o_interaction_potential := [[KR_C]];
  o_scattering_integral := [[MENDENHALL_WELLER]];
  o_root_finder := [[DEFAULTNEWTON]];
  o_num_threads := 1%nat; o_num_chunks := 1%nat; o_use_hdf5 := false;
  o_track_displacements := false; o_track_energy_losses := true |}.
(** copper, 0.085 atoms per cubic angstrom, correction factor 1/2 *)
Definition half_input : Mesh0DInput spec_float :=
  {| m0i_length_unit := LU_ANGSTROM; m0i_densities := [nlit 85 (-3)]; m0i_ck := nlit 5 (-1) |}.
(** 1 MeV, cutoff 0.95 MeV, 10 angstrom deep, flying inwards at (0.6, 0.8) *)
Definition fast : ParticleInput spec_float := helium (nZ 1000000) (nZ 950000) (nZ 10) (nlit 6 (-1)) (nlit 8 (-1)).
Definition run_with (m0 : Mesh0DInput spec_float) (o : Options spec_float) (fuel : nat) (i : ParticleInput spec_float) (l : list spec_float) :=
  let! mesh := mesh0d_new m0 in
  let! ion := from_input i o in
  let! out := single_ion_bca None (copper mesh) o fuel ion (draws l) 0%nat in
  Ok (mesh, ion, out).
Lemma run_with_inv m0 o fuel i l (test : outcome -> bool) :
  passes test (run_with m0 o fuel i l) = true ->
  exists mesh ion out n,
    mesh0d_new m0 = Ok mesh /\ from_input i o = Ok ion /\
    single_ion_bca None (copper mesh) o fuel ion (draws l) 0%nat = Ok (out, n) /\ test (mesh, ion, (out, n)) = true.
Proof.
  unfold run_with. destruct (mesh0d_new m0) as [mesh| |]; try discriminate. cbn [bind].
  destruct (from_input _ _) as [ion| |]; try discriminate. cbn [bind].
  destruct (single_ion_bca _ _ _ _ _ _ _) as [[out n]| |] eqn:E; try discriminate. cbn. intros H.
  exists mesh, ion, out, n. auto.
Qed.
Definition loses_too_much (o : outcome) : bool :=
  match o with
  | (_, ion, ([out], _)) => existsb (fun e => SFltb (nlit 9 (-2) *! p_E ion) (el_Ee e)) (p_energies out)
  | _ => false
  end.
Lemma flight_runs : passes loses_too_much (run_with half_input flight_options 60 fast []) = true.
Proof. vm_compute. reflexivity. Qed.
