(** * ToyLoss.v - helium and copper on copper in binary64 (Kr-C potential,
    Newton's method, Mendenhall-Weller quadrature), one draw at a time: the runs
    that refute claims about energies. *)
From Coq Require Import ZArith List Bool Floats.SpecFloat.
From Verif Require Import Num NumSF ToyLibm ModelTypes ModelConsts ModelParticle ModelGeometry ModelMaterial ModelBca ToyRun.
Import ListNotations.
Open Scope Z_scope.
Open Scope num_scope.
#[local] Existing Instance series_num.

Definition plain_options (mode : ElectronicStoppingMode) (mfp : MeanFreePathModel spec_float) (weak : nat) : Options spec_float := {|
  o_track_trajectories := true; o_track_recoils := false; o_track_recoil_trajectories := false;
  o_write_buffer_size := 8%nat; o_weak_collision_order := weak; o_suppress_deep_recoils := false;
  o_high_energy_free_flight_paths := false; o_electronic_stopping_mode := mode;
  o_mean_free_path_model := mfp;
  o_interaction_potential := [[KR_C]];
  o_scattering_integral := [[MENDENHALL_WELLER]];
  o_root_finder := [[DEFAULTNEWTON]];
  o_num_threads := 1%nat; o_num_chunks := 1%nat; o_use_hdf5 := false;
  o_track_displacements := false; o_track_energy_losses := true |}.
(** a half-space of copper, 0.085 atoms per cubic angstrom *)
Definition copper_input : Mesh0DInput spec_float :=
  {| m0i_length_unit := LU_ANGSTROM; m0i_densities := [nlit 85 (-3)]; m0i_ck := nZ 1 |}.
Definition copper (mesh : Mesh0D spec_float) : Material spec_float := {|
  mat_m := [nlit 6355 (-2) *! cAMU]; mat_Z := [nZ 29]; mat_Eb := [nZ 0]; mat_Es := [nlit 352 (-2) *! cEV];
  mat_Ec := [nZ 3 *! cEV]; mat_Ed := [nZ 0]; mat_interaction_index := [0%nat];
  mat_geometry := mesh0d_geometry mesh;
  mat_surface_binding_model := SBM_INDIVIDUAL; mat_bulk_binding_model := BBM_AVERAGE |}.
(** energies in eV, depth in angstrom *)
Definition ion_input (m Z E Ec Es x ux uy : spec_float) : ParticleInput spec_float := {|
  pi_m := m *! cAMU; pi_Z := Z; pi_E := E *! cEV; pi_Ec := Ec *! cEV; pi_Es := Es *! cEV;
  pi_x := x *! cANGSTROM; pi_y := nZ 0; pi_z := nZ 0; pi_ux := ux; pi_uy := uy; pi_uz := nZ 0;
  pi_interaction_index := 0%nat; pi_weight := nZ 1; pi_tag := 0 |}.
Definition helium (E Ec x ux uy : spec_float) : ParticleInput spec_float := ion_input (nZ 4) (nZ 2) E Ec (nZ 0) x ux uy.
(** the random numbers: these, then 1/2 for ever *)
Definition draws (l : list spec_float) : Rng spec_float := fun k => nth k l (nlit 5 (-1)).
Definition run_of (mode : ElectronicStoppingMode) (mfp : MeanFreePathModel spec_float) (weak fuel : nat)
    (i : ParticleInput spec_float) (l : list spec_float) :=
  let! mesh := mesh0d_new copper_input in
  let! ion := from_input i (plain_options mode mfp weak) in
  let! out := single_ion_bca None (copper mesh) (plain_options mode mfp weak) fuel ion (draws l) 0%nat in
  Ok (mesh, ion, out).
Lemma run_of_inv mode mfp weak fuel i l (test : Mesh0D spec_float * Particle spec_float * (list (Particle spec_float) * nat) -> bool) :
  passes test (run_of mode mfp weak fuel i l) = true ->
  exists mesh ion out n,
    mesh0d_new copper_input = Ok mesh /\ from_input i (plain_options mode mfp weak) = Ok ion /\
    single_ion_bca None (copper mesh) (plain_options mode mfp weak) fuel ion (draws l) 0%nat = Ok (out, n) /\
    test (mesh, ion, (out, n)) = true.
Proof.
  unfold run_of. destruct (mesh0d_new copper_input) as [mesh| |]; try discriminate. cbn [bind].
  destruct (from_input _ _) as [ion| |]; try discriminate. cbn [bind].
  destruct (single_ion_bca _ _ _ _ _ _ _) as [[out n]| |] eqn:E; try discriminate. cbn. intros H.
  exists mesh, ion, out, n. auto.
Qed.

(** ** three runs *)
(** 1 keV, cutoff 999 eV, 0.1 angstrom deep, flying along the surface; the
    partner (azimuthal angle 0) would lie outside *)
Definition skimming : ParticleInput spec_float := helium (nZ 1000) (nZ 999) (nlit 1 (-1)) (nZ 0) (nZ 1).
Definition outcome : Type := Mesh0D spec_float * Particle spec_float * (list (Particle spec_float) * nat).
Definition no_collision_loss (o : outcome) : bool :=
  match o with
  | (_, ion, ([out], _)) =>
      Nat.eqb (p_number_collision_events out) 0 && p_stopped out &&
      match p_energies out with
      | [e] => SFeqb (el_En e) (nZ 0) && SFltb (nZ 3 *! cEV) (el_Ee e)
      | _ => false
      end
  | _ => false
  end.
Lemma skimming_run : passes no_collision_loss (run_of LOW_ENERGY_LOCAL LIQUID 0 20 skimming [nZ 0]) = true.
Proof. vm_compute. reflexivity. Qed.
(** 100 keV, cutoff 3 eV, 0.2 angstrom deep, flying outwards at (-0.6, 0.8) *)
Definition grazing : ParticleInput spec_float := helium (nZ 100000) (nZ 3) (nlit 2 (-1)) (nlit (-6) (-1)) (nlit 8 (-1)).
Definition gains_energy (o : outcome) : bool :=
  match o with
  | (_, ion, ([out], _)) =>
      p_left out && (match p_Es ion with S754_zero false => true | _ => false end) && SFltb (p_E ion) (p_E out) && existsb (fun e => SFltb (el_Ee e) (nZ 0)) (p_energies out)
  | _ => false
  end.
Definition grazing_draws : list spec_float := [nlit 5 (-1); nlit 9 (-1); nlit 1 (-9)].
Lemma grazing_run : passes gains_energy (run_of LOW_ENERGY_NONLOCAL LIQUID 0 60 grazing grazing_draws) = true.
Proof. vm_compute. reflexivity. Qed.
