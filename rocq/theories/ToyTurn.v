(** * ToyTurn.v - 60 eV helium in copper in binary64, flying at (0.6, 0.8, 0) and
    turned by ninety degrees about the surface normal, at (0.6, 0, 0.8): the same
    random numbers, recoils followed *)
From Coq Require Import ZArith List Bool Floats.SpecFloat.
From Verif Require Import Num NumSF ToyLibm ModelTypes ModelConsts ModelParticle ModelGeometry ModelMaterial ModelBca ToyRun ToyLoss ToyFlight.
Import ListNotations.
Open Scope Z_scope.
Open Scope num_scope.
#[local] Existing Instance series_num.

Definition turn_options : Options spec_float := {|
  o_track_trajectories := false; o_track_recoils := true; o_track_recoil_trajectories := false;
  o_write_buffer_size := 8%nat; o_weak_collision_order := 0%nat; o_suppress_deep_recoils := false;
  o_high_energy_free_flight_paths := false; o_electronic_stopping_mode := LOW_ENERGY_NONLOCAL;
  o_mean_free_path_model := LIQUID;
  o_interaction_potential := [[KR_C]];
  o_scattering_integral := [[MENDENHALL_WELLER]];
  o_root_finder := [[DEFAULTNEWTON]];
  o_num_threads := 1%nat; o_num_chunks := 1%nat; o_use_hdf5 := false;
  o_track_displacements := false; o_track_energy_losses := false |}.
Definition heavy : ParticleInput spec_float := helium (nZ 60) (nZ 59) (nZ 10) (nlit 6 (-1)) (nlit 8 (-1)).
Definition heavy_turned : ParticleInput spec_float := {|
  pi_m := pi_m heavy; pi_Z := pi_Z heavy; pi_E := pi_E heavy; pi_Ec := pi_Ec heavy; pi_Es := pi_Es heavy;
  pi_x := pi_x heavy; pi_y := pi_y heavy; pi_z := pi_z heavy;
  pi_ux := pi_ux heavy; pi_uy := pi_uz heavy; pi_uz := pi_uy heavy;
  pi_interaction_index := 0%nat; pi_weight := nZ 1; pi_tag := 0 |}.
Definition turn_draws : list spec_float := [nZ 0; nlit 5 (-2)].
(** one recoil; its origin is [lo] to [hi] angstrom away from the x axis along [side] *)
Definition origin_between (side : Vector spec_float -> spec_float) (lo hi : spec_float) (o : outcome) : bool :=
  match o with
  | (_, _, (_ :: p :: _, _)) => negb (p_incident p) && SFltb (lo *! cANGSTROM) (side (p_pos_origin p)) && SFltb (side (p_pos_origin p)) (hi *! cANGSTROM)
  | _ => false
  end.
Lemma upright_run : passes (origin_between vy (nZ 1) (nlit 12 (-1))) (run_with copper_input turn_options 30 heavy turn_draws) = true.
Proof. vm_compute. reflexivity. Qed.
Lemma turned_run : passes (origin_between vz (nlit 6 (-1)) (nlit 8 (-1))) (run_with copper_input turn_options 30 heavy_turned turn_draws) = true.
Proof. vm_compute. reflexivity. Qed.
Lemma origin_inv side lo hi mesh ion out n : origin_between side lo hi (mesh, ion, (out, n)) = true ->
  exists p, nth_error out 1 = Some p /\ p_incident p = false /\
    SFltb (lo *! cANGSTROM) (side (p_pos_origin p)) = true /\ SFltb (side (p_pos_origin p)) (hi *! cANGSTROM) = true.
Proof.
  destruct out as [|a [|p out]]; try discriminate. cbn [origin_between]. intros H. apply andb_prop in H. destruct H as (H & H3).
  apply andb_prop in H. destruct H as (H1 & H2). exists p. apply negb_true_iff in H1. auto.
Qed.
