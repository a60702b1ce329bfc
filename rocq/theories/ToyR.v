(** * ToyR.v - a concrete half-space target in exact arithmetic, used as
    evidence that the hypotheses of the theorems over [R] are satisfiable. *)
From Coq Require Import ZArith List Bool Lia Reals Lra.
From Verif Require Import Num ModelTypes ModelConsts ModelParticle ModelInteractions ModelGeometry
  ModelMaterial ModelBca Spec ProofsBase ProofsBca NumR SpecR ProofsStep ProofsSampling ProofsEnergy.
Import ListNotations.
Open Scope R_scope.

Definition r_options : Options R := {|
  o_track_trajectories := false; o_track_recoils := true; o_track_recoil_trajectories := false;
  o_write_buffer_size := 8%nat; o_weak_collision_order := 0%nat; o_suppress_deep_recoils := false;
  o_high_energy_free_flight_paths := false; o_electronic_stopping_mode := LOW_ENERGY_NONLOCAL;
  o_mean_free_path_model := LIQUID;
  o_interaction_potential := [[COULOMB 1 1]];
  o_scattering_integral := [[GAUSS_MEHLER 0]];
  o_root_finder := [[DEFAULTNEWTON]];
  o_num_threads := 1%nat; o_num_chunks := 1%nat; o_use_hdf5 := false;
  o_track_displacements := true; o_track_energy_losses := true |}.

(** one atom per cubic metre: mean free path 1, barrier thickness 2/sqrt(pi) *)
Definition r_mesh (ck : R) : Mesh0D R := {|
  m0_densities := [1]; m0_concentrations := [1]; m0_ck := ck;
  m0_energy_barrier_thickness := 2 / sqrt PI |}.
Lemma r_mesh_constructed ck :
  mesh0d_new {| m0i_length_unit := LU_M; m0i_densities := [1]; m0i_ck := ck |} = Ok (r_mesh ck).
Proof.
  unfold mesh0d_new, r_mesh, convert_densities, concentrations_of, barrier_thickness_of.
  cbn [m0i_length_unit length_unit_value bind m0i_densities m0i_ck map]. rewrite nZ_R.
  replace (1 /! npowi 1 3) with 1 by (toR; field).
  rewrite nsum_R. cbn [fold_right]. f_equal. f_equal.
  - f_equal. toR. field.
  - rewrite cSQRTPI_R. rewrite npowf_pos by lra. toR. replace (1 + 0) with 1 by ring.
    unfold Rpower. rewrite ln_1, Rmult_0_r, exp_0. field. pose proof sqrt_pi_pos. lra.
Qed.
Definition r_material (Es ck : R) : Material R := {|
  mat_m := [2]; mat_Z := [1]; mat_Eb := [0]; mat_Es := [Es]; mat_Ec := [0]; mat_Ed := [1];
  mat_interaction_index := [0%nat]; mat_geometry := mesh0d_geometry (r_mesh ck);
  mat_surface_binding_model := SBM_INDIVIDUAL; mat_bulk_binding_model := BBM_AVERAGE |}.
(** an ion of mass 1, energy 1, cutoff 0 *)
Definition r_input (Es x ux uy : R) : ParticleInput R := {|
  pi_m := 1; pi_Z := 1; pi_E := 1; pi_Ec := 0; pi_Es := Es; pi_x := x; pi_y := 0; pi_z := 0;
  pi_ux := ux; pi_uy := uy; pi_uz := 0; pi_interaction_index := 0%nat; pi_weight := 1; pi_tag := 0%Z |}.
Definition r_ion (Es x ux uy : R) : Particle R := {|
  p_m := 1; p_Z := 1; p_E := 1; p_Ec := 0; p_Es := Es; p_Ed := 0;
  p_pos := mkV x 0 0; p_dir := mkV ux uy 0; p_pos_old := mkV x 0 0; p_dir_old := mkV ux uy 0;
  p_pos_origin := mkV x 0 0; p_energy_origin := 1; p_asymptotic_deflection := 0;
  p_stopped := false; p_left := false; p_incident := true; p_first_step := true;
  p_trajectory := [mkTE 1 x 0 0]; p_energies := []; p_track_trajectories := false;
  p_number_collision_events := 0%nat; p_backreflected := false; p_interaction_index := 0%nat;
  p_weight := 1; p_tag := 0%Z; p_tracked_vector := mkV 0 0 0 |}.
Lemma r_ion_accepted Es x ux uy :
  ux * ux + uy * uy = 1 -> Rabs ux < 1 - / IZR (2 ^ 52) ->
  from_input (r_input Es x ux uy) r_options = Ok (r_ion Es x ux uy).
Proof.
  intros Hu Hx. unfold from_input. cbn [pi_ux pi_uy pi_uz pi_E r_input].
  assert (Hm : sqrt (ux * ux + uy * uy + 0 * 0) = 1).
  { replace (ux * ux + uy * uy + 0 * 0) with 1 by (rewrite <- Hu; ring). apply sqrt_1. }
  toR. rewrite Hm. replace (ux / 1) with ux by field. replace (uy / 1) with uy by field.
  replace (0 / 1) with 0 by field.
  replace (Rabs ux <! 1 - neps) with true by (symmetry; apply nlt_true; exact Hx).
  replace (0 <! 1) with true by (symmetry; apply nlt_true; lra).
  cbn [rassert bind]. reflexivity.
Qed.

Lemma r_chooses Es ck : forall r x y z, 0 <= r < 1 ->
  choose_with (r_material Es ck) r x y z = Ok (mkSpecies 0 1 2 0 Es 1 0).
Proof.
  intros r x y z Hr. unfold choose_with, get_cumulative_concentrations.
  cbn [r_material mat_geometry mesh0d_geometry g_get_concentrations m0_concentrations r_mesh bind cumulative_from choose_index].
  replace (r <! (nZ 0 +! 1)) with true by (symmetry; apply nlt_true; toR; lra).
  reflexivity.
Qed.
Lemma r_physical Es ck : 0 <= Es -> physical (r_material Es ck).
Proof.
  intros H. split; cbn [r_material mat_m mat_Es mat_Ec mat_geometry]; try (constructor; [lra|constructor]).
  intros x y z cs E. injection E as <-. constructor; [lra|constructor].
Qed.
Lemma r_thickness : 1 <= 2 / sqrt PI < 12 / 10.
Proof.
  pose proof sqrt_pi_pos as Hp. pose proof PI_4 as H4. pose proof PI2_3_2 as H3.
  assert (Hsq : sqrt PI * sqrt PI = PI) by (apply sqrt_sqrt; lra).
  set (s := sqrt PI) in *. assert (H : 3 / 2 < s <= 2) by (split; nra).
  assert (E : 2 / s * s = 2) by (field; lra). set (q := 2 / s) in *.
  split; nra.
Qed.
