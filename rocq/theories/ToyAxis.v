(** * ToyAxis.v - runs for C107: 1 eV helium on copper in binary64, almost along
    the surface normal; a target that is nowhere, in exact arithmetic with
    undefined values *)
From Coq Require Import ZArith List Bool Reals Lra Floats.SpecFloat.
From Verif Require Import Num NumR NumSF NumO ToyLibm ModelTypes ModelConsts ModelParticle ModelInteractions ModelGeometry ModelMaterial ModelBca
  Spec SpecPartial ProofsBase ProofsBca ProofsPartial ToyRun ToyLoss ToyFlight.
Import ListNotations.
(** ** a target that is nowhere, for any number type *)
Section Nowhere.
  Context {F : Type} {NF : Num F}.
Definition nowhere (u : F) : Geometry F := {|
  g_get_densities := fun _ _ _ => Ok [u]; g_get_ck := fun _ _ _ => Ok u;
  g_get_total_density := fun _ _ _ => Ok u; g_get_concentrations := fun _ _ _ => Ok [u];
  g_inside := fun _ _ _ => false; g_inside_simulation_boundary := fun _ _ _ => false; g_inside_energy_barrier := fun _ _ _ => Ok false;
  g_closest_point := fun x y z => Ok (x, y, z) |}.
Definition nowhere_material (u : F) : Material F := {|
  mat_m := [u]; mat_Z := [u]; mat_Eb := [u]; mat_Es := [u]; mat_Ec := [u]; mat_Ed := [u];
  mat_interaction_index := [0%nat]; mat_geometry := nowhere u;
  mat_surface_binding_model := SBM_INDIVIDUAL; mat_bulk_binding_model := BBM_AVERAGE |}.
Definition nowhere_options : Options F := {|
  o_track_trajectories := true; o_track_recoils := true; o_track_recoil_trajectories := true;
  o_write_buffer_size := 8%nat; o_weak_collision_order := 0%nat; o_suppress_deep_recoils := false;
  o_high_energy_free_flight_paths := false; o_electronic_stopping_mode := LOW_ENERGY_NONLOCAL;
  o_mean_free_path_model := LIQUID;
  o_interaction_potential := [[KR_C]]; o_scattering_integral := [[MENDENHALL_WELLER]]; o_root_finder := [[DEFAULTNEWTON]];
  o_num_threads := 1%nat; o_num_chunks := 1%nat; o_use_hdf5 := false;
  o_track_displacements := true; o_track_energy_losses := true |}.
Lemma step_leaves u d ion : active ion -> nis_nan (p_E ion) = false -> (forall x y z, choose_with (nowhere_material u) d x y z = Ok (mkSpecies 0%nat u u u u u 0%nat)) ->
  exists q n, bca_step None (nowhere_material u) nowhere_options ion [] (fun _ => d) 0%nat = Ok ((q, []), n) /\ p_left q = true /\ p_stopped q = false.
Proof.
  intros [Hs Hl] HE Hc.
  assert (D : exists p bcg n, determine_mfp_phi_impact_parameter (nowhere_material u) nowhere_options ion (fun _ => d) 0%nat = Ok ((p, [bcg]), n) /\ p_stopped p = false /\ p_E p = p_E ion).
  { unfold determine_mfp_phi_impact_parameter. cbn. destruct (p_first_step ion); cbn; do 3 eexists; (split; [reflexivity|split; [exact Hs|reflexivity]]). }
  destruct D as (p & bcg & n & Hd & Hp & Ep).
  unfold bca_step, mbind at 1. rewrite Hd. cbn [firstn o_weak_collision_order nowhere_options collision_loop].
  assert (C : forall cs, collision_step None (nowhere_material u) nowhere_options 0 bcg cs (fun _ => d) n = Ok (cs, S n)).
  { intros cs. unfold collision_step, choose_collision_partner, choose, mbind, mrandom, mlift. cbv beta iota.
    rewrite Hc. cbv beta iota. reflexivity. }
  unfold mbind at 1. unfold mbind at 1. rewrite C. cbv beta iota. unfold mret at 1. cbv beta iota.
  unfold mbind at 1. cbn [idx nth_error mlift mret]. cbv beta iota.
  cbn [cs_particle_1 cs_particles cs_total_energy_lost_to_recoils cs_total_asymptotic_deflection].
  destruct (advance (bcg_mfp bcg) (nZ 0) p) as [q dist] eqn:Ha.
  assert (Hq : p_stopped q = false /\ p_E q = p_E p).
  { unfold advance in Ha. pose proof (f_equal fst Ha) as K. cbn [fst] in K. rewrite <- K. unfold update_trajectory_tracker.
    destruct (p_Ec p <! p_E p)%num; [destruct (p_track_trajectories p)|]; split; first [exact Hp|reflexivity]. }
  destruct Hq as (Hq & Eq).
  unfold mbind at 1. unfold mlift at 1.
  assert (Su : forall a b c, exists l, subtract_electronic_stopping_energy (nowhere_material u) nowhere_options q dist a b c = Ok (q, l)).
  { intros a b c. unfold subtract_electronic_stopping_energy. rewrite Eq, Ep, HE. cbn. eexists. reflexivity. }
  match goal with |- context [subtract_electronic_stopping_energy _ _ _ _ ?a ?b ?c] => destruct (Su a b c) as (l & ->) end. cbv beta iota.
  unfold mbind at 1. unfold mlift at 1.
  set (r := update_energy_loss_tracker _ _ _ _).
  assert (Hr : p_stopped r = false) by (unfold r, update_energy_loss_tracker; destruct (_ && _); exact Hq).
  assert (B : boundary_condition_planar (nowhere_material u) r = Ok (update_trajectory_tracker (set_p_left true r))).
  { unfold boundary_condition_planar. cbn [mat_inside_simulation_boundary nowhere_material mat_geometry nowhere g_inside_simulation_boundary negb].
    cbn [mat_inside_energy_barrier nowhere_material mat_geometry nowhere g_inside_energy_barrier bind].
    rewrite !andb_false_r. unfold update_trajectory_tracker. cbn [p_track_trajectories set_p_left].
    destruct (p_track_trajectories r); cbn [p_stopped p_left set_p_left set_p_trajectory negb]; rewrite andb_false_r; reflexivity. }
  rewrite B. cbv beta iota. do 2 eexists. split; [reflexivity|]. unfold update_trajectory_tracker. cbn [p_track_trajectories set_p_left].
  destruct (p_track_trajectories r); cbn; auto.
Qed.
Lemma leaves_at_once u d ion : active ion -> nis_nan (p_E ion) = false -> (forall x y z, choose_with (nowhere_material u) d x y z = Ok (mkSpecies 0%nat u u u u u 0%nat)) ->
  exists out n, single_ion_bca None (nowhere_material u) nowhere_options 3 ion (fun _ => d) 0%nat = Ok ([out], n).
Proof.
  intros Ha HE Hc. destruct (step_leaves u d ion Ha HE Hc) as (q & n & Hq & Hl & Hs). destruct Ha as (As & Al).
  exists q, n. unfold single_ion_bca. cbn [stack_loop bca_loop]. rewrite As, Al. cbn [negb andb].
  unfold mbind at 1. unfold mbind at 1. rewrite Hq. cbv beta iota. rewrite Hl, Hs. cbn [negb andb length]. reflexivity.
Qed.
End Nowhere.

Section Undefined.
  #[local] Existing Instance NumO.
  Open Scope R_scope.
  Definition o_input : ParticleInput (option R) := {|
    pi_m := Some 1; pi_Z := Some 1; pi_E := Some 2; pi_Ec := Some 1; pi_Es := Some 0;
    pi_x := Some 0; pi_y := Some 0; pi_z := Some 0; pi_ux := Some (6 / 10); pi_uy := Some (8 / 10); pi_uz := Some 0;
    pi_interaction_index := 0%nat; pi_weight := Some 1; pi_tag := 0 |}.
  Lemma o_run : exists ion out n, from_input o_input nowhere_options = Ok ion /\
    single_ion_bca None (nowhere_material (Some 1)) nowhere_options 3 ion (fun _ => Some (1 / 2)) 0%nat = Ok ([out], n).
  Proof.
    assert (H : exists ion, from_input o_input nowhere_options = Ok ion /\ active ion /\ nis_nan (p_E ion) = false).
    { unfold from_input. cbn [o_input pi_ux pi_uy pi_uz pi_E nadd nmul nsqrt NumO lift2]. rewrite sqrt_dom.
      replace (6 / 10 * (6 / 10) + 8 / 10 * (8 / 10) + 0 * 0) with 1 by lra. destruct (Rle_dec 0 1) as [_|K]; [|lra]. rewrite sqrt_1.
      cbn [ndiv]. rewrite !Odiv_ok by lra. unfold nZ. cbn [nlt nlit nabs nsub neps NumO compare lift1 lift2 option_map].
      replace (Rltb (Rabs (6 / 10 / 1)) (Rlit 1 0 - / IZR (2 ^ 52))) with true.
      2:{ symmetry. apply nlt_true. rewrite Rabs_pos_eq by lra. replace (Rlit 1 0) with 1 by (unfold Rlit; cbn; lra). change (2 ^ 52)%Z with 4503599627370496%Z.
          assert (/ 4503599627370496 < / 10) by (apply Rinv_lt_contravar; lra). lra. }
      replace (Rltb (Rlit 0 0) 2) with true by (symmetry; apply nlt_true; unfold Rlit; cbn; lra).
      cbn [rassert bind]. eexists. split; [reflexivity|]. repeat split; reflexivity. }
    destruct H as (ion & H & Ha & HE). destruct (leaves_at_once (Some 1) (Some (1 / 2)) ion Ha HE) as (out & n & Hr); [|eauto 6].
    intros x y z. unfold choose_with, get_cumulative_concentrations. cbn.
    replace (Rltb (1 / 2) (0 * 1 + 1)) with true by (symmetry; apply nlt_true; lra). reflexivity.
  Qed.
End Undefined.

(** ** 1 eV helium with a surface binding energy of 2 eV, direction (1, 4e-8, 0) *)
Section Normal.
  Open Scope Z_scope.
  #[local] Existing Instance series_num.
  Definition almost_normal : ParticleInput spec_float := ion_input (nZ 4) (nZ 2) (nZ 1) (nlit 1 (-1)) (nZ 2) (nZ (-3)) (nZ 1) (nlit 4 (-8)).
  Definition axis_draws : list spec_float := repeat (nlit 5 (-1)) 8 ++ [nlit 95 (-2)].
  Definition is_nan (x : spec_float) : bool := match x with S754_nan => true | _ => false end.
  Definition lost (o : outcome) : bool :=
    match o with
    | (_, ion, ([out], _)) =>
        p_left out && is_nan (vx (p_pos out)) && is_nan (vy (p_pos out)) && is_nan (vz (p_pos out)) &&
        is_nan (vx (p_dir out)) && is_nan (vy (p_dir out)) && is_nan (vz (p_dir out)) && SFltb (nZ 2 *! p_E ion)%num (p_E out)
    | _ => false
    end.
  Lemma normal_run : passes lost (run_with copper_input (plain_options LOW_ENERGY_LOCAL LIQUID 0) 20 almost_normal axis_draws) = true.
  Proof. vm_compute. reflexivity. Qed.
  Lemma lost_inv mesh ion out n : lost (mesh, ion, (out, n)) = true -> exists p, out = [p] /\ p_left p = true /\
    p_pos p = mkV S754_nan S754_nan S754_nan /\ p_dir p = mkV S754_nan S754_nan S754_nan /\ SFltb (nZ 2 *! p_E ion)%num (p_E p) = true.
  Proof.
    destruct out as [|p [|]]; try discriminate. cbn [lost]. intros H.
    repeat (apply andb_prop in H; destruct H as [H ?]).
    assert (N : forall x, is_nan x = true -> x = S754_nan) by (intros []; cbn; congruence).
    exists p. split; [reflexivity|]. split; [exact H|]. destruct (p_pos p) as [a b c], (p_dir p) as [a' b' c']. cbn [vx vy vz] in *.
    rewrite (N a), (N b), (N c), (N a'), (N b'), (N c') by assumption. auto.
  Qed.
End Normal.
