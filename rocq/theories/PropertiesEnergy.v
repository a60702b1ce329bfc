(** * PropertiesEnergy.v - C88..: where the energy of a cascade goes *)
From Coq Require Import ZArith List Bool Lia Reals Lra Floats.SpecFloat.
From Verif Require Import Num NumSF NumR ModelTypes ModelConsts ModelParticle ModelInteractions ModelGeometry ModelMaterial ModelBca.
From Verif Require Import Spec SpecR SpecShift SpecEnergy ProofsBase ProofsBca ProofsStep ProofsFlight ProofsMaterial ProofsEnergy ProofsLoss
  ProofsSurface ProofsSampling ProofsRefute ToyLibm ToyR ToyRun ToyLoss.
Import ListNotations.
Open Scope R_scope.

(** ** C88: electronic losses by mode *)
(** What holds: a step that begins with a collision (the first partner is an
    atom of the target and the particle is inside the barrier) charges the
    continuous loss over the path actually flown and the Oen-Robinson loss of
    that first collision, in the proportions of the mode. *)
Theorem C88_loss_of_a_step_partial :
  forall (build : Build R) (mat : Material R) (options : Options R) p particles rng n p' particles' n',
    active p -> 0 < p_Z p -> Forall (fun Z => 0 < Z) (mat_Z mat) ->
    (forall row ip a b, In row (o_interaction_potential options) -> In ip row -> ip = COULOMB a b -> 0 < a /\ 0 < b) ->
    bca_step build mat options p particles rng n = Ok ((p', particles'), n') ->
    in_material mat (p_pos p') = true ->
    exists p0 b0 bs n1 i p2 n2,
      determine_mfp_phi_impact_parameter mat options p rng n = Ok ((p0, b0 :: bs), n1) /\
      choose_collision_partner mat options p0 b0 rng n1 = Ok ((i, p2), n2) /\
      (in_material mat (p_pos p2) = true -> in_barrier mat (p_pos p) = Ok true ->
       exists r path En Ee q S dens j ip s,
         calculate_binary_collision build p0 p2 b0 options = Ok (Some r) /\
         p_pos p' = vplus (p_pos p) (vscale path (p_dir_old p)) /\
         same_identity p q /\ p_pos q = p_pos p' /\ p_E q = p_E p - En /\
         electronic_stopping_cross_sections mat q (o_electronic_stopping_mode options) = Ok S /\
         g_get_densities (mat_geometry mat) (vx (p_pos p')) (vy (p_pos p')) (vz (p_pos p')) = Ok dens /\
         nth_error (mat_interaction_index mat) i = Some j /\
         idx2 (o_interaction_potential options) (p_interaction_index p) j = Ok ip /\
         (has_local_part (o_electronic_stopping_mode options) = true -> nth_error S i = Some s) /\
         Ee = loss_by_mode (o_electronic_stopping_mode options) S dens path (exponent_of ip) (length_of ip (p_Z p) (p_Z p2)) s
                (bcr_normalized_distance_of_closest_approach r) /\
         p_energies p' = if p_incident p && o_track_energy_losses options
           then p_energies p ++ [mkEL En Ee (vx (p_pos p')) (vy (p_pos p')) (vz (p_pos p'))] else p_energies p).
Proof.
  intros build mat options p particles rng n p' particles' n' Ha HZ HZs HC H Hin.
  apply strong_collision in H; [|exact Ha].
  destruct H as (p0 & b0 & bs & n1 & i & p2 & n2 & barrier & cs & Hd & Hc & Hb & Hloop & Hs & qa & q & loss & dist & Hdist & Hqa & Hpa & HEa & Hid & Hsub & Hbnd & Hpp & _ & Hen).
  exists p0, b0, bs, n1, i, p2, n2. split; [exact Hd|]. split; [exact Hc|]. intros Hin2 Hbar.
  pose proof (determine_frame _ _ _ _ _ _ _ _ Hd) as Hfr.
  assert (Hp0 : p_pos p0 = p_pos p) by (rewrite Hfr; destruct (p_first_step p); reflexivity).
  rewrite Hp0, Hbar in Hb. injection Hb as <-. rewrite Hin2 in Hs. cbn [andb] in Hs. destruct Hs as (r & Hr & Hst).
  rewrite Hst in Hsub. cbn [fst snd] in Hsub.
  pose proof (subtract_frame _ _ _ _ _ _ _ _ _ Hsub) as (Eq & Hq).
  assert (Hpos : p_pos qa = p_pos p') by (rewrite Hpp, Hq; reflexivity).
  destruct (stopping_inside _ _ _ _ _ _ _ _ _ Hsub) as (Hl & _); [rewrite Hpos; exact Hin|].
  apply loss_formula in Hl. destruct Hl as (S & dens & j & ip & HS & Hdens & Hj & Hip & Hloc & Hloss).
  rewrite Hpos in Hdens.
  assert (HidZ : p_Z qa = p_Z p /\ p_interaction_index qa = p_interaction_index p).
  { split; symmetry; apply Hid. }
  destruct HidZ as (HqZ & Hqi). rewrite Hqi in Hip.
  exists r, dist, (cs_total_energy_lost_to_recoils cs), loss, qa, S, dens, j, ip, (nth i S 0).
  split; [exact Hr|].
  split; [rewrite <- Hpos, Hpa; unfold vplus, vscale; cbn; f_equal; apply f_equal, Rmult_comm|].
  split; [exact Hid|]. split; [exact Hpos|].
  split.
  { rewrite HEa. apply collision_loop_energy in Hloop. cbn [cs_particle_1 cs_total_energy_lost_to_recoils] in Hloop.
    rewrite nZ_R in Hloop. assert (p_E p0 = p_E p) by (rewrite Hfr; destruct (p_first_step p); reflexivity). lra. }
  split; [exact HS|]. split; [exact Hdens|]. split; [exact Hj|]. split; [exact Hip|].
  split.
  { intros Hhl. destruct (Hloc Hhl) as (s & Hsn). rewrite (nth_error_nth _ _ _ Hsn). exact Hsn. }
  split; [|exact Hen].
  rewrite Hloss, HqZ, exponent_of_R. f_equal.
  pose proof (partner_inv _ _ _ _ _ _ _ _ _ Hc) as (_ & _ & _ & _ & _ & _ & (HZ2 & _) & _).
  apply length_of_R; [exact HZ| |].
  - rewrite Forall_forall in HZs. apply HZs. eapply nth_error_In. exact HZ2.
  - intros a b ->. unfold idx2 in Hip. apply bind_ok in Hip. destruct Hip as (row & Hrow & Hip).
    apply idx_ok in Hrow. apply idx_ok in Hip. apply nth_error_In in Hrow. apply nth_error_In in Hip.
    exact (HC row _ a b Hrow Hip eq_refl).
Qed.
Print Assumptions C88_loss_of_a_step_partial.

(** a head-on collision deep inside the target of [ToyR], any mode *)
Definition r_mode (mode : ElectronicStoppingMode) (recoils : bool) : Options R := {|
  o_track_trajectories := false; o_track_recoils := recoils; o_track_recoil_trajectories := false;
  o_write_buffer_size := 8%nat; o_weak_collision_order := 0%nat; o_suppress_deep_recoils := false;
  o_high_energy_free_flight_paths := false; o_electronic_stopping_mode := mode;
  o_mean_free_path_model := LIQUID;
  o_interaction_potential := [[COULOMB 1 1]];
  o_scattering_integral := [[GAUSS_MEHLER 0]];
  o_root_finder := [[DEFAULTNEWTON]];
  o_num_threads := 1%nat; o_num_chunks := 1%nat; o_use_hdf5 := false;
  o_track_displacements := true; o_track_energy_losses := true |}.
Lemma r_inside es v : 0 < vx v -> in_material (r_material es 1) v = true.
Proof. intros H. unfold in_material. cbn [r_material mat_geometry mesh0d_geometry g_inside]. apply nlt_true. rewrite nZ_R. exact H. Qed.
Lemma r_in_barrier es v : 0 < vx v -> in_barrier (r_material es 1) v = Ok true.
Proof.
  intros H. unfold in_barrier. cbn [r_material mat_geometry mesh0d_geometry g_inside_energy_barrier m0_energy_barrier_thickness r_mesh].
  pose proof r_thickness. f_equal. apply nlt_true. toR. lra.
Qed.
Definition r_at (es ec : R) : Particle R := {|
  p_m := 1; p_Z := 1; p_E := 1; p_Ec := ec; p_Es := es; p_Ed := 0;
  p_pos := mkV 5 0 0; p_dir := mkV 0 1 0; p_pos_old := mkV 5 0 0; p_dir_old := mkV 0 1 0;
  p_pos_origin := mkV 5 0 0; p_energy_origin := 1; p_asymptotic_deflection := 0;
  p_stopped := false; p_left := false; p_incident := true; p_first_step := false;
  p_trajectory := [mkTE 1 5 0 0]; p_energies := []; p_track_trajectories := false;
  p_number_collision_events := 0%nat; p_backreflected := false; p_interaction_index := 0%nat;
  p_weight := 1; p_tag := 0%Z; p_tracked_vector := mkV 0 0 0 |}.
Lemma r_step mode recoils es ec : exists p2 n2 p' ps' n',
  determine_mfp_phi_impact_parameter (r_material es 1) (r_mode mode recoils) (r_at es ec) zero_rng 0%nat = Ok ((r_at es ec, [r_bcg]), 2%nat) /\
  choose_collision_partner (r_material es 1) (r_mode mode recoils) (r_at es ec) r_bcg zero_rng 2%nat = Ok ((0%nat, p2), n2) /\
  in_material (r_material es 1) (p_pos p2) = true /\
  bca_step None (r_material es 1) (r_mode mode recoils) (r_at es ec) [] zero_rng 0%nat = Ok ((p', ps'), n') /\
  p_pos p' = mkV 5 1 0 /\ (p_E p' < ec -> p_stopped p' = true) /\ (recoils = false -> ps' = []).
Proof.
  assert (Hd : determine_mfp_phi_impact_parameter (r_material es 1) (r_mode mode recoils) (r_at es ec) zero_rng 0%nat = Ok ((r_at es ec, [r_bcg]), 2%nat)).
  { destruct (mat_mfp_R (r_material es 1) 5 0 0 [1] eq_refl) as (Hm & _); [cbn; lra|].
    assert (E1 : Rpower (Rsum [1]) (-1 / 3) = 1) by exact r_mfp. rewrite E1 in Hm.
    unfold determine_mfp_phi_impact_parameter.
    change (vx (p_pos (r_at es ec))) with 5. change (vy (p_pos (r_at es ec))) with 0. change (vz (p_pos (r_at es ec))) with 0.
    rewrite Hm.
    change (o_high_energy_free_flight_paths (r_mode mode recoils)) with false.
    change (o_weak_collision_order (r_mode mode recoils)) with 0%nat.
    change (o_mean_free_path_model (r_mode mode recoils)) with (LIQUID : MeanFreePathModel R).
    unfold mbind, mlift, mret, mrandoms, mrandom, mbind, mret, first_step_path, mret.
    change (p_first_step (r_at es ec)) with false. cbv beta iota.
    cbn [map zip combine seq idx nth_error fst snd]. cbv beta iota.
    do 2 f_equal. unfold r_bcg. repeat f_equal; toR; unfold zero_rng; cbn [INR]; rewrite ?Rplus_0_r, ?sqrt_0; lra. }
  assert (Hp : exists p2, choose_collision_partner (r_material es 1) (r_mode mode recoils) (r_at es ec) r_bcg zero_rng 2%nat = Ok ((0%nat, p2), 3%nat) /\
    p_m p2 = 2 /\ p_interaction_index p2 = 0%nat /\ p_pos p2 = mkV 5 1 0).
  { unfold choose_collision_partner, choose, mbind, mrandom, mlift, mret. rewrite r_chooses by (unfold zero_rng; lra).
    eexists. split; [reflexivity|]. cbn [p_m p_interaction_index p_pos p_Ec set_p_tracked_vector set_p_tag set_p_weight particle_new s_m s_interaction_index s_Ec].
    split; [reflexivity|]. split; [reflexivity|]. unfold recoil_position. cbn [r_at p_pos p_dir vx vy vz r_bcg bcg_impact_parameter bcg_mfp bcg_phi_azimuthal].
    toR. replace (1 - 0 * 0) with 1 by ring. rewrite sqrt_1. f_equal; field. }
  destruct Hp as (p2 & Hp' & Hm & Hi & Hpos).
  destruct (r_collision p2 Hm Hi) as (r & Hr & Hth & HT).
  change (calculate_binary_collision None (r_at es ec) p2 r_bcg (r_mode mode recoils) = Ok (Some r)) in Hr.
  assert (Hb : average_bulk_binding_energy (r_material es 1) 5 1 0 = Ok 0).
  { unfold average_bulk_binding_energy. cbn [r_material mat_geometry mesh0d_geometry g_get_concentrations bind mat_Eb m0_concentrations r_mesh].
    rewrite weighted_sum_R. cbn. f_equal. ring. }
  set (cs0 := mkCS (r_at es ec) [] (nZ 0) (nZ 0) (nZ 0) (nZ 0) 0%nat).
  assert (Has : bcr_asymptotic_deflection r = 0).
  { unfold calculate_binary_collision in Hr. rewrite Hi in Hr.
    change (idx2 (o_interaction_potential (r_mode mode recoils)) (p_interaction_index (r_at es ec)) 0) with (Ok (COULOMB 1 1 : InteractionPotential R)) in Hr.
    change (idx2 (o_scattering_integral (r_mode mode recoils)) (p_interaction_index (r_at es ec)) 0) with (Ok (GAUSS_MEHLER 0)) in Hr. cbn [bind] in Hr.
    apply bind_ok in Hr. destruct Hr as (x0 & _ & Hr). apply bind_ok in Hr. destruct Hr as (th & _ & Hr).
    destruct (nis_nan th); [discriminate Hr|]. apply ok_inj in Hr. injection Hr as <-. cbn. ring. }
  assert (Hc : exists cs, collision_step None (r_material es 1) (r_mode mode recoils) 0 r_bcg cs0 zero_rng 2%nat = Ok (cs, 3%nat) /\
      cs_total_asymptotic_deflection cs = 0 /\ cs_strong_collision_index cs = 0%nat /\
      (recoils = false -> cs_particles cs = [])).
  { unfold collision_step, cs0. cbn [cs_particle_1]. unfold mbind at 1. rewrite Hp'.
    unfold mbind at 1, mlift at 1.
    change (mat_inside_energy_barrier (r_material es 1) (vx (p_pos (r_at es ec))) (vy (p_pos (r_at es ec))) (vz (p_pos (r_at es ec))))
      with (in_barrier (r_material es 1) (mkV 5 0 0)).
    rewrite r_in_barrier by (cbn; lra). rewrite Hpos. cbn [vx vy vz].
    change (mat_inside (r_material es 1) 5 1 0) with (in_material (r_material es 1) (mkV 5 1 0)).
    rewrite r_inside by (cbn; lra).
    cbv beta iota. cbn [andb]. unfold unwrap_ok. rewrite Hr. cbn [bind]. unfold mbind at 1, mlift at 1.
    unfold mbind at 1, mlift at 1. rewrite Hb. cbv beta iota.
    unfold keep_recoil. change (o_suppress_deep_recoils (r_mode mode recoils)) with false. rewrite andb_false_r.
    unfold mbind, mlift, mret. eexists. split; [reflexivity|]. cbn [cs_total_asymptotic_deflection cs_strong_collision_index Nat.eqb]. rewrite Has. toR. split; [lra|]. split; [reflexivity|].
    intros E. cbn [cs_particles r_mode o_track_recoils]. rewrite E. reflexivity. }
  destruct Hc as (cs & Hc & Hca & Hci & Hcp).
  assert (Hloop : collision_loop None (r_material es 1) (r_mode mode recoils) 0 (firstn (S (o_weak_collision_order (r_mode mode recoils))) [r_bcg]) cs0 zero_rng 2%nat = Ok (cs, 3%nat)).
  { cbn [collision_loop firstn r_mode o_weak_collision_order]. unfold mbind at 1. rewrite Hc. reflexivity. }
  pose proof (collision_loop_ok _ _ _ _ _ _ _ _ _ _ Hloop) as (Hf & _). cbn [cs_particle_1 cs0] in Hf.
  destruct Hf as (Hid & Hf1 & Hf2 & Hf3 & Hf4 & Hf5 & Hf6 & Hf7 & _).
  exists p2, 3%nat.
  set (qa := fst (advance (bcg_mfp r_bcg) (cs_total_asymptotic_deflection cs) (cs_particle_1 cs))).
  set (dist := snd (advance (bcg_mfp r_bcg) (cs_total_asymptotic_deflection cs) (cs_particle_1 cs))).
  assert (Hqa : p_pos qa = mkV 5 1 0 /\ p_pos_old qa = mkV 5 0 0 /\ active qa /\ p_interaction_index qa = 0%nat /\ same_identity (r_at es ec) qa).
  { unfold qa, advance, update_trajectory_tracker. rewrite Hca.
    destruct (_ >! _); [destruct (p_track_trajectories _)|]; cbn -[r_at r_bcg nadd nsub nmul];
      rewrite ?Hf1, ?Hf3, ?Hf4, ?Hf5, ?Hf6; (split; [cbn; f_equal; lra|]); (split; [reflexivity|]); (split; [split; cbn; rewrite ?Hf5, ?Hf6; reflexivity|]);
      (split; [symmetry; apply Hid|exact Hid]). }
  destruct Hqa as (Hq1 & Hq2 & Hq3 & Hq4 & Hq5).
  assert (Hsub : exists q loss, subtract_electronic_stopping_energy (r_material es 1) (r_mode mode recoils) qa dist
                  (cs_normalized_distance_of_closest_approach cs) (cs_strong_collision_Z cs) (cs_strong_collision_index cs) = Ok (q, loss)).
  { unfold subtract_electronic_stopping_energy. rewrite Hci.
    change (mat_inside (r_material es 1) (vx (p_pos qa)) (vy (p_pos qa)) (vz (p_pos qa))) with (in_material (r_material es 1) (p_pos qa)).
    rewrite r_inside by (rewrite Hq1; cbn; lra). unfold electronic_loss. rewrite Hq4. destruct mode; eexists _, _; reflexivity. }
  destruct Hsub as (q & loss & Hsub).
  pose proof (subtract_frame _ _ _ _ _ _ _ _ _ Hsub) as (Eq & Hq).
  destruct (loss_tracker_frame (r_mode mode recoils) (cs_total_energy_lost_to_recoils cs) loss q) as (l & El).
  set (qt := update_energy_loss_tracker (r_mode mode recoils) (cs_total_energy_lost_to_recoils cs) loss q) in *.
  assert (Ht : p_pos qt = mkV 5 1 0 /\ p_pos_old qt = mkV 5 0 0 /\ active qt /\ p_Ec qt = ec).
  { rewrite El, Hq. split; [exact Hq1|]. split; [exact Hq2|]. split; [exact Hq3|]. cbn. symmetry. apply Hq5. }
  destruct Ht as (Ht1 & Ht2 & Ht3 & Ht4).
  assert (Hb2 : exists p', boundary_condition_planar (r_material es 1) qt = Ok p' /\ (p_E p' < ec -> p_stopped p' = true)).
  { unfold boundary_condition_planar. rewrite Ht1. cbn [vx vy vz].
    replace (mat_inside_simulation_boundary (r_material es 1) 5 1 0) with true.
    2:{ symmetry. unfold mat_inside_simulation_boundary. cbn [r_material mat_geometry mesh0d_geometry g_inside_simulation_boundary r_mesh m0_energy_barrier_thickness].
        pose proof r_thickness. apply nlt_true. toR. lra. }
    change (mat_inside_energy_barrier (r_material es 1) 5 1 0) with (in_barrier (r_material es 1) (mkV 5 1 0)).
    rewrite r_in_barrier by (cbn; lra). cbn [negb bind].
    destruct Ht3 as (Hs3 & Hl3). rewrite Hl3, andb_true_r. cbn [negb]. rewrite andb_true_r, Ht4.
    destruct (p_E qt <! ec) eqn:Hlt.
    - unfold update_trajectory_tracker; destruct (p_track_trajectories _); cbn [p_stopped set_p_stopped set_p_trajectory negb andb]; eexists; (split; [reflexivity|]); reflexivity.
    - rewrite Hs3, Hl3. cbn [negb andb]. unfold surface_binding_energy. rewrite Ht1, Ht2. cbn [vx vy vz].
      change (actual_surface_binding_energy (r_material es 1) qt 5 0 0) with (Ok (p_Es qt)).
      change (mat_inside_energy_barrier (r_material es 1) 5 1 0) with (in_barrier (r_material es 1) (mkV 5 1 0)).
      change (mat_inside_energy_barrier (r_material es 1) 5 0 0) with (in_barrier (r_material es 1) (mkV 5 0 0)).
      rewrite !r_in_barrier by (cbn; lra). cbn [bind andb negb]. eexists. split; [reflexivity|]. bool_R. intros. exfalso. lra. }
  destruct Hb2 as (p' & Hb2 & Hst).
  exists p', (cs_particles cs), 3%nat.
  split; [exact Hd|]. split; [exact Hp'|]. split; [rewrite Hpos; apply r_inside; cbn; lra|].
  split.
  - unfold bca_step. unfold mbind at 1. rewrite Hd. cbv beta iota. fold cs0. unfold mbind at 1. rewrite Hloop. cbv beta iota.
    unfold mbind at 1, mlift at 1. change (idx [r_bcg] 0) with (Ok r_bcg). cbv beta iota.
    rewrite (surjective_pairing (advance (bcg_mfp r_bcg) (cs_total_asymptotic_deflection cs) (cs_particle_1 cs))). fold qa dist.
    unfold mbind at 1, mlift at 1. rewrite Hsub. fold qt. unfold mbind, mlift, mret. rewrite Hb2. reflexivity.
  - pose proof (boundary_ok _ _ _ Ht3 Hb2) as (_ & B1 & _). rewrite B1. split; [exact Ht1|]. split; [exact Hst|exact Hcp].
Qed.
Example C88_applies : forall mode, exists p' ps' n' p2 n2,
  active (r_at 1 0) /\ 0 < p_Z (r_at 1 0) /\ Forall (fun Z => 0 < Z) (mat_Z (r_material 1 1)) /\
  (forall row ip a b, In row (o_interaction_potential (r_mode mode true)) -> In ip row -> ip = COULOMB a b -> 0 < a /\ 0 < b) /\
  bca_step None (r_material 1 1) (r_mode mode true) (r_at 1 0) [] zero_rng 0%nat = Ok ((p', ps'), n') /\
  in_material (r_material 1 1) (p_pos p') = true /\
  determine_mfp_phi_impact_parameter (r_material 1 1) (r_mode mode true) (r_at 1 0) zero_rng 0%nat = Ok ((r_at 1 0, [r_bcg]), 2%nat) /\
  choose_collision_partner (r_material 1 1) (r_mode mode true) (r_at 1 0) r_bcg zero_rng 2%nat = Ok ((0%nat, p2), n2) /\
  in_material (r_material 1 1) (p_pos p2) = true /\ in_barrier (r_material 1 1) (p_pos (r_at 1 0)) = Ok true.
Proof.
  intros mode. destruct (r_step mode true 1 0) as (p2 & n2 & p' & ps' & n' & H1 & H2 & H3 & H4 & H5 & _).
  exists p', ps', n', p2, n2. split; [split; reflexivity|]. split; [cbn; lra|]. split; [constructor; [lra|constructor]|].
  split. { intros row ip a b [<-|[]] [<-|[]] E. injection E as <- <-. lra. }
  split; [exact H4|]. split; [rewrite H5; apply r_inside; cbn; lra|]. split; [exact H1|]. split; [exact H2|]. split; [exact H3|].
  apply r_in_barrier. cbn. lra.
Qed.

(** What fails: the local loss is charged in every iteration that ends inside,
    also when nothing was hit.  A 1 keV helium ion flies along the surface of
    copper, its partner would lie outside, there is no collision, and yet more
    than 3 eV of local loss are charged and recorded: enough to stop it, with a
    cutoff of 999 eV. *)
Theorem C88_refuted_local_loss_without_a_collision :
  exists mesh ion out n e,
    @mesh0d_new _ series_num copper_input = Ok mesh /\
    @from_input _ series_num skimming (plain_options LOW_ENERGY_LOCAL LIQUID 0) = Ok ion /\
    @single_ion_bca _ series_num None (copper mesh) (plain_options LOW_ENERGY_LOCAL LIQUID 0) 20 ion (draws [@nZ _ series_num 0]) 0%nat = Ok ([out], n) /\
    p_number_collision_events out = 0%nat /\ p_stopped out = true /\
    p_energies out = [e] /\ SFeqb (el_En e) (@nZ _ series_num 0) = true /\
    SFltb (@nmul _ series_num (@nZ _ series_num 3) (@cEV _ series_num)) (el_Ee e) = true.
Proof.
  destruct (run_of_inv _ _ _ _ _ _ _ skimming_run) as (mesh & ion & out & n & H1 & H2 & H3 & H).
  unfold no_collision_loss in H. destruct out as [|out [|]]; try discriminate H.
  apply andb_true_iff in H. destruct H as (H & He). apply andb_true_iff in H. destruct H as (Hc & Hs).
  destruct (p_energies out) as [|e [|]] eqn:Ee; try discriminate He. apply andb_true_iff in He. destruct He as (He1 & He2).
  exists mesh, ion, out, n, e. split; [exact H1|]. split; [exact H2|]. split; [exact H3|].
  split; [apply Nat.eqb_eq; exact Hc|]. split; [exact Hs|]. split; [exact Ee|]. split; [exact He1|exact He2].
Qed.
Print Assumptions C88_refuted_local_loss_without_a_collision.

(** ** C89: electronic stopping never gives energy *)
(** What holds: in the low-energy modes the loss of a step is not negative when
    it is purely local, and otherwise when the particle moved forward. *)
Theorem C89_stopping_only_slows_partial :
  forall (build : Build R) (mat : Material R) (options : Options R) p particles rng n p' particles' n',
    physical mat -> stopping_target mat -> o_electronic_stopping_mode options <> INTERPOLATED ->
    active p -> energy_ok p -> Forall energy_ok particles -> 0 < p_Z p ->
    bca_step build mat options p particles rng n = Ok ((p', particles'), n') ->
    exists path En Ee,
      p_pos p' = vplus (p_pos p) (vscale path (p_dir_old p)) /\
      p_energies p' = (if p_incident p && o_track_energy_losses options
        then p_energies p ++ [mkEL En Ee (vx (p_pos p')) (vy (p_pos p')) (vz (p_pos p'))] else p_energies p) /\
      (o_electronic_stopping_mode options = LOW_ENERGY_LOCAL \/ 0 <= path ->
       0 <= Ee /\ (in_barrier mat (p_pos p') = in_barrier mat (p_pos p) \/ ~ active p' -> p_E p' <= p_E p - En)).
Proof.
  intros build mat options p particles rng n p' particles' n' Hph Hst Hmode Ha Hp Hps HZ H.
  pose proof H as Hstep. apply strong_collision in H; [|exact Ha].
  destruct H as (p0 & b0 & bs & n1 & i & p2 & n2 & barrier & cs & Hd & Hc & Hb & Hloop & Hs & qa & q & loss & dist & Hdist & Hqa & Hpa & HEa & Hid & Hsub & Hbnd & Hpp & _ & Hen).
  pose proof (subtract_frame _ _ _ _ _ _ _ _ _ Hsub) as (Eq & Hq).
  assert (Hpos : p_pos qa = p_pos p') by (rewrite Hpp, Hq; reflexivity).
  assert (Hp0 : energy_ok p0 /\ p_E p0 = p_E p).
  { rewrite (determine_frame _ _ _ _ _ _ _ _ Hd). destruct Hp. destruct (p_first_step p); split; try constructor; auto. }
  destruct Hp0 as (Hp0 & HE0).
  pose proof (collision_loop_energy _ _ _ _ _ _ _ _ _ _ Hloop) as HE. cbn [cs_particle_1 cs_total_energy_lost_to_recoils] in HE. rewrite nZ_R in HE.
  assert (HEc : 0 <= p_E (cs_particle_1 cs)).
  { apply (collision_loop_invariant (fun c => energy_ok (cs_particle_1 c) /\ Forall energy_ok (cs_particles c))) in Hloop.
    - apply Hloop.
    - intros. eapply collision_step_energy_ok; eassumption.
    - split; assumption. }
  exists dist, (cs_total_energy_lost_to_recoils cs), loss.
  split; [rewrite <- Hpos, Hpa; unfold vplus, vscale; cbn; f_equal; apply f_equal, Rmult_comm|].
  split; [exact Hen|]. intros Hcase.
  assert (HEq : 0 <= loss /\ p_E q <= p_E p - cs_total_energy_lost_to_recoils cs).
  { destruct (in_material mat (p_pos qa)) eqn:Hin.
    - destruct (stopping_inside _ _ _ _ _ _ _ _ _ Hsub Hin) as (Hl & Hqe).
      apply loss_nonneg in Hl; try assumption.
      + split; [exact Hl|]. rewrite Hqe. cbn [p_E set_p_E]. rewrite HEa. apply Rmax_lub; lra.
      + rewrite HEa. exact HEc.
      + replace (p_m qa) with (p_m p) by apply Hid. apply Hp.
      + replace (p_Z qa) with (p_Z p) by apply Hid. exact HZ.
    - destruct (stopping_outside _ _ _ _ _ _ _ _ _ Hsub Hin) as (-> & ->). rewrite HEa. lra. }
  destruct HEq as (Hl & HEq). split; [exact Hl|]. intros Hbar.
  replace (p_E p') with (p_E q); [exact HEq|]. symmetry.
  assert (Hqo : p_pos_old q = p_pos p).
  { rewrite Hq. cbn. rewrite Hqa. unfold advance.
    pose proof (collision_loop_ok _ _ _ _ _ _ _ _ _ _ Hloop) as (Hf & _). cbn [cs_particle_1] in Hf.
    destruct Hf as (_ & Hf1 & _).
    assert (p_pos p0 = p_pos p) by (rewrite (determine_frame _ _ _ _ _ _ _ _ Hd); destruct (p_first_step p); reflexivity).
    unfold update_trajectory_tracker. destruct (_ <! _); [destruct (p_track_trajectories _)|]; cbn; rewrite Hf1, H; destruct (p_pos p); reflexivity. }
  assert (Haq : active q).
  { rewrite Hq. unfold active. cbn. rewrite Hqa. unfold advance.
    pose proof (collision_loop_ok _ _ _ _ _ _ _ _ _ _ Hloop) as (Hf & _). cbn [cs_particle_1] in Hf.
    destruct Hf as (_ & _ & _ & _ & _ & Hf1 & Hf2 & _).
    assert (active p0) by (rewrite (determine_frame _ _ _ _ _ _ _ _ Hd); destruct (p_first_step p); exact Ha). destruct H as (Hx & Hy).
    unfold update_trajectory_tracker. destruct (_ <! _); [destruct (p_track_trajectories _)|]; cbn; rewrite Hf1, Hf2; auto. }
  destruct (loss_tracker_frame options (cs_total_energy_lost_to_recoils cs) loss q) as (l & El). rewrite El in Hbnd.
  destruct (boundary_cases _ _ _ (Haq : active (set_p_energies l q)) Hbnd) as [(Hact & Hsb & _)|(_ & _ & HE' & _)]; [|exact HE'].
  destruct Hbar as [Hbar|Hbar]; [|contradiction].
  pose proof (surface_inv _ _ _ Hsb) as (Es & now & before & _ & Hn & Hbf & Hm).
  cbn in Hn, Hbf. rewrite Hpp in Hbar. rewrite Hqo in Hbf. rewrite Hbar, Hbf in Hn. injection Hn; intros ->.
  destruct now; rewrite Hm; reflexivity.
Qed.
Print Assumptions C89_stopping_only_slows_partial.
Lemma r_stopping_target es : stopping_target (r_material es 1).
Proof.
  constructor; [constructor; [lra|constructor]| |]; intros x y z v E.
  - change (Ok 1 = Ok v) in E. injection E as <-. lra.
  - change (Ok [1] = Ok v) in E. injection E as <-. constructor; [lra|constructor].
Qed.
Lemma r_at_ok es ec : 0 <= es -> energy_ok (r_at es ec).
Proof. constructor; cbn; try lra. unfold short, vdot; cbn; lra. Qed.
Example C89_applies : exists p' ps' n',
  physical (r_material 1 1) /\ stopping_target (r_material 1 1) /\ active (r_at 1 0) /\ energy_ok (r_at 1 0) /\ 0 < p_Z (r_at 1 0) /\
  bca_step None (r_material 1 1) (r_mode LOW_ENERGY_NONLOCAL true) (r_at 1 0) [] zero_rng 0%nat = Ok ((p', ps'), n') /\
  p_pos p' = vplus (p_pos (r_at 1 0)) (vscale 1 (p_dir_old (r_at 1 0))).
Proof.
  destruct (r_step LOW_ENERGY_NONLOCAL true 1 0) as (p2 & n2 & p' & ps' & n' & H1 & H2 & H3 & H4 & H5 & _).
  exists p', ps', n'. split; [apply r_physical; lra|]. split; [apply r_stopping_target|].
  split; [split; reflexivity|]. split; [apply r_at_ok; lra|]. split; [cbn; lra|]. split; [exact H4|].
  rewrite H5. unfold vplus, vscale. cbn. f_equal; lra.
Qed.

(** What fails: the path of a step is the free path plus the previous asymptotic
    shift minus the new one, and nothing keeps it positive.  A 100 keV helium ion
    0.2 angstrom below the surface of copper, moving outwards, makes one step
    backwards: a negative electronic loss is recorded, and it leaves the target
    with more energy than it had (its surface binding energy is zero). *)
Theorem C89_refuted_negative_stopping :
  exists mesh ion out n e,
    @mesh0d_new _ series_num copper_input = Ok mesh /\
    @from_input _ series_num grazing (plain_options LOW_ENERGY_NONLOCAL LIQUID 0) = Ok ion /\
    @single_ion_bca _ series_num None (copper mesh) (plain_options LOW_ENERGY_NONLOCAL LIQUID 0) 60 ion (draws grazing_draws) 0%nat = Ok ([out], n) /\
    In e (p_energies out) /\ SFltb (el_Ee e) (@nZ _ series_num 0) = true.
Proof.
  destruct (run_of_inv _ _ _ _ _ _ _ grazing_run) as (mesh & ion & out & n & H1 & H2 & H3 & H).
  unfold gains_energy in H. destruct out as [|out [|]]; try discriminate H.
  apply andb_true_iff in H. destruct H as (_ & H). apply existsb_exists in H. destruct H as (e & He & Hlt).
  exists mesh, ion, out, n, e. auto.
Qed.
Print Assumptions C89_refuted_negative_stopping.

(** ** C90: a cascade never carries away more energy than the ion brought *)
(** What holds: with no surface binding energies and purely local stopping, the
    energies of all particles at the end of the run add up to at most the energy
    of the ion. *)
Theorem C90_energy_of_a_cascade_partial :
  forall (build : Build R) (mat : Material R) (options : Options R) fuel ion rng n out n',
    physical mat -> stopping_target mat -> no_surface_barrier mat ->
    o_electronic_stopping_mode options = LOW_ENERGY_LOCAL ->
    energy_ok ion -> 0 < p_Z ion -> p_Es ion = 0 ->
    single_ion_bca build mat options fuel ion rng n = Ok (out, n') ->
    total_energy out <= p_E ion /\ Forall (fun p => 0 <= p_E p) out.
Proof.
  intros build mat options fuel ion rng n out n' Hph Hst Hnb Hmode Hi HZ HEs H. split.
  - unfold single_ion_bca in H. apply stack_loop_total in H; try assumption.
    + unfold total_energy in *. cbn in H |- *. unfold Rsum in *. lra.
    + constructor; [split; auto|constructor].
  - apply run_energy_ok in H; try assumption. eapply Forall_impl; [|exact H]. intros p Hp. apply Hp.
Qed.
Print Assumptions C90_energy_of_a_cascade_partial.
(** an ion of energy 1 and cutoff 2 stops at its first (head-on) collision *)
Example C90_applies : exists out n',
  physical (r_material 0 1) /\ stopping_target (r_material 0 1) /\ no_surface_barrier (r_material 0 1) /\
  energy_ok (r_at 0 2) /\ 0 < p_Z (r_at 0 2) /\ p_Es (r_at 0 2) = 0 /\
  single_ion_bca None (r_material 0 1) (r_mode LOW_ENERGY_LOCAL false) 3 (r_at 0 2) zero_rng 0%nat = Ok ([out], n') /\
  p_stopped out = true.
Proof.
  destruct (r_step LOW_ENERGY_LOCAL false 0 2) as (p2 & n2 & p' & ps' & n' & H1 & H2 & H3 & H4 & H5 & Hst & Hps).
  specialize (Hps eq_refl). subst ps'.
  assert (Hph : physical (r_material 0 1)) by (apply r_physical; lra).
  assert (Hnb : no_surface_barrier (r_material 0 1)) by (constructor; constructor; try constructor; lra).
  assert (Hc : carrier (r_at 0 2)) by (split; [apply r_at_ok; lra|split; [cbn; lra|reflexivity]]).
  pose proof H4 as He. apply step_total in He; [|exact Hph|apply r_stopping_target|exact Hnb|reflexivity|split; reflexivity|exact Hc|constructor].
  destruct He as (_ & He).
  unfold total_energy in He. cbn in He. assert (Hs : p_stopped p' = true) by (apply Hst; lra).
  exists p', n'. split; [exact Hph|]. split; [apply r_stopping_target|]. split; [exact Hnb|]. split; [apply Hc|]. split; [apply Hc|].
  split; [reflexivity|]. split; [|exact Hs].
  unfold single_ion_bca. cbn [stack_loop]. unfold mbind at 1. cbn [bca_loop].
  change (negb (p_stopped (r_at 0 2)) && negb (p_left (r_at 0 2))) with true. cbv iota. unfold mbind at 1. rewrite H4.
  cbn [bca_loop]. rewrite Hs. reflexivity.
Qed.
(** What fails: the same run ends with more energy than it began with. *)
Theorem C90_refuted_energy_is_created :
  exists mesh ion out n,
    @mesh0d_new _ series_num copper_input = Ok mesh /\
    @from_input _ series_num grazing (plain_options LOW_ENERGY_NONLOCAL LIQUID 0) = Ok ion /\
    @single_ion_bca _ series_num None (copper mesh) (plain_options LOW_ENERGY_NONLOCAL LIQUID 0) 60 ion (draws grazing_draws) 0%nat = Ok ([out], n) /\
    p_left out = true /\ p_Es ion = @nZ _ series_num 0 /\ SFltb (p_E ion) (p_E out) = true.
Proof.
  destruct (run_of_inv _ _ _ _ _ _ _ grazing_run) as (mesh & ion & out & n & H1 & H2 & H3 & H).
  unfold gains_energy in H. destruct out as [|out [|]]; try discriminate H.
  apply andb_true_iff in H. destruct H as (H & _). apply andb_true_iff in H. destruct H as (H & HE).
  apply andb_true_iff in H. destruct H as (Hl & Hz).
  exists mesh, ion, out, n. split; [exact H1|]. split; [exact H2|]. split; [exact H3|]. split; [exact Hl|]. split; [|exact HE].
  destruct (p_Es ion) as [[]| | |]; try discriminate Hz. reflexivity.
Qed.
Print Assumptions C90_refuted_energy_is_created.
