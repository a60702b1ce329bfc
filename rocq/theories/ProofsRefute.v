(** * ProofsRefute.v - telescoping of free paths, and counterexamples in exact arithmetic *)
From Coq Require Import ZArith List Bool Lia Reals Lra.
From Verif Require Import Num ModelTypes ModelConsts ModelParticle ModelInteractions ModelGeometry
  ModelMaterial ModelBca Spec ProofsBase ProofsBca NumR SpecR ProofsStep ProofsKinematics ProofsSurface
  ProofsFlight ProofsEnergy ProofsSampling ProofsHalf ToyR.
Import ListNotations.
Open Scope R_scope.

(** ** C15: consecutive steps of one particle.  [visited] lists the state at
    the start of each step with the free path drawn in that step. *)
Inductive steps (build : Build R) (mat : Material R) (options : Options R) :
  Particle R -> list (Particle R * R) -> Particle R -> Prop :=
| steps_none p : steps build mat options p [] p
| steps_more p particles rng n p0 bcgs n1 bcg0 p1 particles1 n2 visited p' :
    active p ->
    determine_mfp_phi_impact_parameter mat options p rng n = Ok ((p0, bcgs), n1) ->
    nth_error bcgs 0 = Some bcg0 ->
    bca_step build mat options p particles rng n = Ok ((p1, particles1), n2) ->
    steps build mat options p1 visited p' ->
    steps build mat options p ((p, bcg_mfp bcg0) :: visited) p'.

(** displacement by hops of the given lengths along the given states' directions *)
Definition displacement (hops : list R) (visited : list (Particle R * R)) : Vector R :=
  fold_right vplus (mkV 0 0 0) (map (fun sv => vscale (fst sv) (p_dir_old (fst (snd sv)))) (combine hops visited)).

Lemma vplus_assoc a b c : vplus (vplus a b) c = vplus a (vplus b c).
Proof. unfold vplus. cbn. f_equal; ring. Qed.
Lemma telescope build mat options p visited p' :
  steps build mat options p visited p' ->
  exists hops, length hops = length visited /\
    p_pos p' = vplus (p_pos p) (displacement hops visited) /\
    Rsum hops = Rsum (map snd visited) + p_asymptotic_deflection p - p_asymptotic_deflection p'.
Proof.
  induction 1 as [p|p particles rng n p0 bcgs n1 bcg0 p1 particles1 n2 visited p' Ha Hd Hn Hs _ IH].
  - exists []. split; [reflexivity|]. split.
    + unfold displacement. cbn. destruct (p_pos p). unfold vplus. cbn. f_equal; ring.
    + cbn. ring.
  - destruct IH as (hops & Hl & Hp & Hsum).
    destruct (step_displacement _ _ _ _ _ _ _ _ _ _ Ha Hs) as (p0' & bcgs' & n1' & bcg0' & Hd' & Hn' & Hpos & _).
    rewrite Hd in Hd'. injection Hd' as <- <- <-. rewrite Hn in Hn'. injection Hn' as <-.
    exists (bcg_mfp bcg0 + p_asymptotic_deflection p - p_asymptotic_deflection p1 :: hops).
    split; [cbn; congruence|]. split.
    + rewrite Hp, Hpos. unfold displacement. cbn. apply vplus_assoc.
    + cbn. unfold Rsum in *. rewrite Hsum. ring.
Qed.

(** ** C20 *)
Lemma deep_entry_turns_back mat (p p' : Particle R) Es y z :
  surface_binding_energy mat p = Ok p' ->
  in_barrier mat (p_pos_old p) = Ok false -> in_barrier mat (p_pos p) = Ok true ->
  actual_surface_binding_energy mat p (vx (p_pos_old p)) (vy (p_pos_old p)) (vz (p_pos_old p)) = Ok Es ->
  p_pos p = mkV (vx (p_pos p)) y z -> 0 < vx (p_pos p) ->
  mat_closest_point mat (vx (p_pos p)) (vy (p_pos p)) (vz (p_pos p)) = Ok (0, y, z) ->
  isotropic (mat_surface_binding_model mat) = false -> p_backreflected p = false ->
  is_unit (p_dir p) -> 0 < p_E p -> 0 < Es ->
  vx (p_dir p') < 0.
Proof.
  intros H Hold Hnow Hes Hpos Hx Hc Hiso Hb Hu HE HEs.
  set (c := mkV 0 y z).
  assert (Hne : p_pos p <> c). { intros E. rewrite E in Hx. cbn in Hx. lra. }
  destruct (barrier_entering mat p p' Es c H Hold Hnow Hes Hc Hne Hu HE (Rlt_le _ _ HEs)) as (_ & Hr).
  specialize (Hr Hb). destruct Hr as (HE' & _ & _ & Hd). rewrite Hiso in Hd. destruct Hd as (_ & Hd).
  set (X := vx (p_pos p)) in *.
  assert (Hn : vtoward (p_pos p) c = mkV (-1) 0 0).
  { rewrite Hpos. unfold vtoward, vdist, vminus, vscale, vdot, c. cbn [vx vy vz].
    replace ((0 - X) * (0 - X) + (y - y) * (y - y) + (z - z) * (z - z)) with (X * X) by ring.
    rewrite sqrt_square by lra. f_equal; field; lra. }
  rewrite Hn in Hd. unfold vdot in Hd. cbn [vx vy vz] in Hd.
  assert (Hpos1 : 0 < sqrt (p_E p * ((vx (p_dir p) * -1 + vy (p_dir p) * 0 + vz (p_dir p) * 0) *
      (vx (p_dir p) * -1 + vy (p_dir p) * 0 + vz (p_dir p) * 0)) + Es)).
  { apply sqrt_lt_R0. pose proof (Rle_0_sqr (vx (p_dir p) * -1 + vy (p_dir p) * 0 + vz (p_dir p) * 0)) as Hs. unfold Rsqr in Hs.
    apply Rplus_le_lt_0_compat; [apply Rmult_le_pos; lra|exact HEs]. }
  rewrite <- Hd in Hpos1. pose proof (sqrt_pos (p_E p')) as Hsq.
  destruct (Rlt_dec (vx (p_dir p')) 0) as [?|Hge]; [assumption|].
  exfalso. assert (sqrt (p_E p') * (vx (p_dir p') * -1 + vy (p_dir p') * 0 + vz (p_dir p') * 0) <= 0) by nra. lra.
Qed.

(** ** C22: the reported electronic loss can exceed the energy there is *)
Lemma overreport mat options (p : Particle R) dist x0 scZ sci p' loss :
  subtract_electronic_stopping_energy mat options p dist x0 scZ sci = Ok (p', loss) ->
  in_material mat (p_pos p) = true -> 0 <= p_E p < loss ->
  p_E p' = 0 /\ p_E p - p_E p' < loss.
Proof.
  intros H Hin Hl. destruct (stopping_inside _ _ _ _ _ _ _ _ _ H Hin) as (_ & ->). cbn.
  rewrite Rmax_left by lra. lra.
Qed.

(** ** the concrete ion of ToyR that is reflected by the barrier *)
Definition zero_rng : Rng R := fun _ => 0.
Lemma zero_rng_unit : unit_randoms zero_rng.
Proof. intros k. unfold zero_rng. lra. Qed.
Definition r_mat := r_material 1 1.
Lemma r_mfp : Rpower (Rsum (m0_densities (r_mesh 1))) (-1 / 3) = 1.
Proof. cbn. replace (1 + 0) with 1 by ring. unfold Rpower. rewrite ln_1, Rmult_0_r. apply exp_0. Qed.
Definition late (p : Particle R) := set_p_first_step false p.

Lemma r_free p particles n :
  active p -> p_asymptotic_deflection p = 0 -> p_first_step p = false ->
  vx (p_pos p) + vx (p_dir p) <= 0 -> vx (p_pos p) + vx (p_dir_old p) <= 0 ->
  exists q,
      p_pos q = vplus (p_pos p) (p_dir_old p) /\ p_pos_old q = p_pos p /\
      p_dir q = p_dir p /\ p_dir_old q = p_dir p /\ p_asymptotic_deflection q = 0 /\
      p_first_step q = false /\ active q /\ p_E q = p_E p /\ p_backreflected q = p_backreflected p /\
      same_identity p q /\
      forall p', boundary_condition_planar r_mat q = Ok p' ->
        exists n', bca_step None r_mat r_options p particles zero_rng n = Ok ((p', particles), n').
Proof.
  intros Ha Has Hf Hd Hdo.
  assert (HL : forall m, sampled_path r_options (p_first_step p) (Rpower (Rsum (m0_densities (r_mesh 1))) (-1 / 3)) zero_rng m = 1).
  { intros m. unfold sampled_path. rewrite Hf. cbn [r_options o_mean_free_path_model]. exact r_mfp. }
  assert (Hdens : 0 < Rsum (m0_densities (r_mesh 1))) by (cbn; lra).
  assert (Ht : 0 < m0_energy_barrier_thickness (r_mesh 1)) by (cbn; pose proof r_thickness; lra).
  assert (Hch : forall r x y z, 0 <= r < 1 -> exists s, choose_with r_mat r x y z = Ok s).
  { intros. eexists. apply r_chooses. assumption. }
  destruct (free_step None r_mat r_options (r_mesh 1) eq_refl Hdens Hch eq_refl p particles zero_rng n
     zero_rng_unit Ha Has) as (q & Hq).
  - intros k Hk. rewrite HL. unfold recoil_position. cbn [vx bcg_impact_parameter bcg_mfp bcg_phi_azimuthal]. toR.
    assert (k = 0%nat) by (cbn in Hk; lia). subst k. unfold zero_rng. simpl INR.
    replace (0 + 0) with 0 by ring. rewrite sqrt_0. lra.
  - rewrite HL. lra.
  - rewrite HL in Hq. exists q. destruct Hq as (H1 & Hq). split; [|exact Hq].
    rewrite H1. unfold vplus, vscale. cbn [vx vy vz]. f_equal; ring.
Qed.

Definition r_refl : Particle R := late (r_ion 1 (-9 / 10) (-6 / 10) (8 / 10)).
Lemma r_reflection : exists p1 n1 p2 n2,
  bca_step None r_mat r_options r_refl [] zero_rng 0%nat = Ok ((p1, []), n1) /\
  p_backreflected p1 = true /\ p_dir p1 = mkV (6 / 10) (8 / 10) 0 /\ p_pos p1 = mkV (-15 / 10) (8 / 10) 0 /\
  bca_step None r_mat r_options p1 [] zero_rng 0%nat = Ok ((p2, []), n2) /\
  p_pos p2 = mkV (-21 / 10) (16 / 10) 0.
Proof.
  pose proof r_thickness as (Ht1 & Ht2).
  assert (Hbar : forall v, mat_inside_energy_barrier r_mat (vx v) (vy v) (vz v) = Ok (nlt (- (2 / sqrt PI)) (vx v))) by reflexivity.
  assert (Hbd : forall v, mat_inside_simulation_boundary r_mat (vx v) (vy v) (vz v) = nlt (-10 * (2 / sqrt PI)) (vx v)).
  { intros v. unfold mat_inside_simulation_boundary. cbn [r_mat r_material mat_geometry mesh0d_geometry g_inside_simulation_boundary].
    toR. reflexivity. }
  destruct (r_free r_refl [] 0%nat) as (q & Hqp & Hqpo & Hqd & Hqdo & Hqa & Hqf & (Hqs & Hql) & HqE & Hqb & Hid & Hb);
    [split; reflexivity|reflexivity|reflexivity|cbn; lra|cbn; lra|].
  assert (Hp1 : p_pos q = mkV (-15 / 10) (8 / 10) 0).
  { rewrite Hqp. cbn. unfold vplus. cbn. f_equal; lra. }
  assert (Hs : surface_binding_energy r_mat q =
     Ok (set_p_backreflected true (set_p_dir (mkV (6 / 10) (8 / 10) 0) q))).
  { destruct (surface_binding_energy r_mat q) as [p'| |] eqn:E.
    2,3: exfalso; unfold surface_binding_energy in E; rewrite !Hbar in E;
      change (actual_surface_binding_energy r_mat q (vx (p_pos_old q)) (vy (p_pos_old q)) (vz (p_pos_old q))) with (Ok (p_Es q)) in E;
      cbn [bind] in E; rewrite Hqb in E; rewrite Hp1, Hqpo in E; cbn [vx r_refl late r_ion set_p_first_step p_pos] in E;
      replace (nlt (- (2 / sqrt PI)) (-15 / 10)) with false in E by (symmetry; apply nlt_false; lra);
      replace (nlt (- (2 / sqrt PI)) (-9 / 10)) with true in E by (symmetry; apply nlt_true; lra);
      cbn [andb negb] in E; change (mat_closest_point r_mat (-15 / 10) (vy (mkV (-15 / 10) (8 / 10) 0)) (vz (mkV (-15 / 10) (8 / 10) 0)))
        with (Ok (nZ 0 : R, 8 / 10, 0)) in E; cbn [bind] in E;
      repeat match type of E with context [if ?c then _ else _] => destruct c end; discriminate E.
    destruct (surface_inv _ _ _ E) as (Es & now & before & HEs & Hnow & Hbef & Hm).
    unfold in_barrier in Hnow, Hbef. 
    change (Ok (nlt (- (2 / sqrt PI)) (vx (p_pos q))) = Ok now) in Hnow.
    change (Ok (nlt (- (2 / sqrt PI)) (vx (p_pos_old q))) = Ok before) in Hbef.
    rewrite Hp1 in Hnow. rewrite Hqpo in Hbef. cbn [vx r_refl late r_ion set_p_first_step p_pos] in Hnow, Hbef.
    replace (nlt (- (2 / sqrt PI)) (-15 / 10)) with false in Hnow by (symmetry; apply nlt_false; lra).
    replace (nlt (- (2 / sqrt PI)) (-9 / 10)) with true in Hbef by (symmetry; apply nlt_true; lra).
    injection Hnow as <-. injection Hbef as <-.
    change (Ok (p_Es q) = Ok Es) in HEs. injection HEs as <-.
    destruct Hm as (c & Hc & Hm). rewrite Hp1 in Hc. change (Ok (nZ 0 : R, 8 / 10, 0) = Ok (vx c, vy c, vz c)) in Hc.
    rewrite nZ_R in Hc. injection Hc as Hcx Hcy Hcz.
    assert (Hn : vtoward (p_pos q) c = mkV 1 0 0).
    { rewrite Hp1. destruct c as [cx cy cz]. cbn in Hcx, Hcy, Hcz. subst cx cy cz.
      unfold vtoward, vdist, vminus, vscale, vdot. cbn [vx vy vz].
      replace ((0 - -15 / 10) * (0 - -15 / 10) + (8 / 10 - 8 / 10) * (8 / 10 - 8 / 10) + (0 - 0) * (0 - 0))
        with ((15 / 10) * (15 / 10)) by field.
      rewrite sqrt_square by lra. f_equal; field. }
    cbv zeta in Hm. rewrite Hn in Hm. rewrite Hqd in Hm.
    cbn [r_mat r_material mat_surface_binding_model isotropic] in Hm.
    assert (Hes : p_Es q = 1). { destruct Hid as (_ & _ & _ & H & _). rewrite <- H. reflexivity. }
    rewrite HqE, Hes in Hm. cbn [r_refl late r_ion set_p_first_step p_dir p_E] in Hm. unfold vdot in Hm. cbn [vx vy vz] in Hm.
    destruct Hm as [(H & _)|[(_ & H & _)|(_ & _ & ->)]]; [exfalso; lra|exfalso; lra|].
    do 3 f_equal. unfold vplus, vscale. cbn [vx vy vz]. f_equal; lra. }
  set (p1 := set_p_backreflected true (set_p_dir (mkV (6 / 10) (8 / 10) 0) q)) in *.
  assert (Hbp : boundary_condition_planar r_mat q = Ok p1).
  { unfold boundary_condition_planar. rewrite Hbd, Hbar. rewrite Hp1. cbn [vx].
    replace (nlt (-10 * (2 / sqrt PI)) (-15 / 10)) with true by (symmetry; apply nlt_true; lra).
    replace (nlt (- (2 / sqrt PI)) (-15 / 10)) with false by (symmetry; apply nlt_false; lra).
    cbn [negb bind]. rewrite andb_false_r. cbv iota. rewrite Hqs, Hql. exact Hs. }
  destruct (Hb _ Hbp) as (n1 & Hstep1).
  destruct (r_free p1 [] 0%nat) as (q2 & H2p & H2po & H2d & H2do & H2a & H2f & (H2s & H2l) & H2E & H2b & H2id & Hb2).
  { split; [exact Hqs|exact Hql]. }
  { exact Hqa. } { exact Hqf. }
  { change (vx (p_pos q) + 6 / 10 <= 0). rewrite Hp1. cbn. lra. }
  { change (vx (p_pos q) + vx (p_dir_old q) <= 0). rewrite Hp1, Hqdo. cbn. lra. }
  assert (Hp2 : p_pos q2 = mkV (-21 / 10) (16 / 10) 0).
  { rewrite H2p. change (vplus (p_pos q) (p_dir_old q) = mkV (-21 / 10) (16 / 10) 0). rewrite Hp1, Hqdo.
    cbn [r_refl late r_ion set_p_first_step p_dir]. unfold vplus. cbn. f_equal; lra. }
  assert (Hp2o : p_pos_old q2 = mkV (-15 / 10) (8 / 10) 0).
  { rewrite H2po. exact Hp1. }
  assert (Hbp2 : boundary_condition_planar r_mat q2 = Ok q2).
  { unfold boundary_condition_planar. rewrite Hbd, Hbar. rewrite Hp2. cbn [vx].
    replace (nlt (-10 * (2 / sqrt PI)) (-21 / 10)) with true by (symmetry; apply nlt_true; lra).
    replace (nlt (- (2 / sqrt PI)) (-21 / 10)) with false by (symmetry; apply nlt_false; lra).
    cbn [negb bind]. rewrite andb_false_r. cbv iota. rewrite H2s, H2l. cbn [negb andb].
    unfold surface_binding_energy. rewrite !Hbar.
    change (actual_surface_binding_energy r_mat q2 (vx (p_pos_old q2)) (vy (p_pos_old q2)) (vz (p_pos_old q2))) with (Ok (p_Es q2)).
    cbn [bind]. rewrite Hp2, Hp2o. cbn [vx].
    replace (nlt (- (2 / sqrt PI)) (-21 / 10)) with false by (symmetry; apply nlt_false; lra).
    replace (nlt (- (2 / sqrt PI)) (-15 / 10)) with false by (symmetry; apply nlt_false; lra).
    reflexivity. }
  destruct (Hb2 _ Hbp2) as (n2 & Hstep2).
  exists p1, n1, q2, n2. split; [exact Hstep1|]. split; [reflexivity|]. split; [reflexivity|].
  split; [exact Hp1|]. split; [exact Hstep2|exact Hp2].
Qed.

(** ** a concrete collision: the ion of ToyR deep inside the target, head on *)
Definition r_bcg : BinaryCollisionGeometry R := mkBCG 0 0 1.
Definition r_deep : Particle R := r_ion 1 5 0 1.
Definition r_cs : CollisionState R := mkCS r_deep [] 0 0 0 0 0%nat.
Lemma r_collision (p2 : Particle R) :
  p_m p2 = 2 -> p_interaction_index p2 = 0%nat ->
  exists r, calculate_binary_collision None r_deep p2 r_bcg r_options = Ok (Some r) /\
    bcr_theta r = PI /\ bcr_recoil_energy r = 8 / 9.
Proof.
  intros Hm Hi. unfold calculate_binary_collision. rewrite Hi, Hm.
  change (distance_of_closest_approach None r_deep p2 r_bcg r_options) with
    (let! ip := idx2 (o_interaction_potential r_options) 0 (p_interaction_index p2) in
     match ip with
     | COULOMB Z1 Z2 => Ok (coulomb_doca Z1 Z2 (p_E r_deep *! p_m p2 /! (p_m r_deep +! p_m p2)) (bcg_impact_parameter r_bcg)
                              /! screening_length Z1 Z2 ip)
     | _ => distance_of_closest_approach None r_deep p2 r_bcg r_options
     end) || idtac.
  assert (Hd : exists x0, distance_of_closest_approach None r_deep p2 r_bcg r_options = Ok x0).
  { unfold distance_of_closest_approach. rewrite Hi. eexists. reflexivity. }
  destruct Hd as (x0 & ->). cbn [p_interaction_index r_deep r_ion].
  change (idx2 (o_interaction_potential r_options) 0 0) with (Ok (COULOMB 1 1 : InteractionPotential R)).
  change (idx2 (o_scattering_integral r_options) 0 0) with (Ok (GAUSS_MEHLER 0)).
  cbn [bind scattering_angle].
  assert (Ht : forall a b c d e f g h, gauss_mehler a b c d e f g h 0 = Ok PI).
  { intros. unfold gauss_mehler, scattering_integral_gauss_mehler. cbn [seq map zip combine mapM bind].
    rewrite nsum_R. toR. cbn. f_equal. ring. }
  rewrite Ht. cbn [bind]. eexists. split; [reflexivity|]. split; [reflexivity|].
  unfold collision_kinematics. cbn [bcr_recoil_energy p_m p_E r_deep r_ion]. toR. rewrite sin_PI2. field.
Qed.
Lemma r_partner : exists p2,
  choose_collision_partner (r_material 1 1) r_options r_deep r_bcg zero_rng 0%nat = Ok ((0%nat, p2), 1%nat) /\
  p_m p2 = 2 /\ p_interaction_index p2 = 0%nat /\ p_pos p2 = mkV 5 1 0 /\ p_Ec p2 = 0.
Proof.
  unfold choose_collision_partner, choose, mbind, mrandom, mlift, mret. rewrite r_chooses by (unfold zero_rng; lra).
  eexists. split; [reflexivity|]. cbn [p_m p_interaction_index p_pos p_Ec set_p_tracked_vector set_p_tag set_p_weight particle_new s_m s_interaction_index s_Ec].
  repeat split. unfold recoil_position. cbn [r_deep r_ion p_pos p_dir vx vy vz r_bcg bcg_impact_parameter bcg_mfp bcg_phi_azimuthal].
  toR. replace (1 - 0 * 0) with 1 by ring. rewrite sqrt_1. f_equal; field.
Qed.
Lemma r_collision_step : exists p1' p2' rest n',
  collision_step None (r_material 1 1) r_options 0 r_bcg r_cs zero_rng 0%nat = Ok (rest, n') /\
  cs_particle_1 rest = p1' /\ cs_particles rest = [p2'] /\ p_E p1' = 1 / 9 /\ p_E p2' = 8 / 9.
Proof.
  destruct r_partner as (p2 & Hp & Hm & Hi & Hpos & Hec).
  destruct (r_collision p2 Hm Hi) as (r & Hr & Hth & HT).
  unfold collision_step. cbn [r_cs cs_particle_1]. unfold mbind at 1. rewrite Hp.
  unfold mbind at 1, mlift at 1.
  change (mat_inside_energy_barrier (r_material 1 1) (vx (p_pos r_deep)) (vy (p_pos r_deep)) (vz (p_pos r_deep)))
    with (Ok (nlt (- (2 / sqrt PI)) 5)).
  pose proof r_thickness as Ht.
  replace (nlt (- (2 / sqrt PI)) 5) with true by (symmetry; apply nlt_true; lra).
  rewrite Hpos. cbn [vx vy vz].
  replace (mat_inside (r_material 1 1) 5 1 0) with true
    by (symmetry; unfold mat_inside; cbn [r_material mat_geometry mesh0d_geometry g_inside]; apply nlt_true; rewrite nZ_R; lra).
  cbv beta iota. cbn [andb]. unfold unwrap_ok. rewrite Hr. cbn [bind]. unfold mbind at 1, mlift at 1.
  unfold mbind at 1, mlift at 1.
  assert (Hb : average_bulk_binding_energy (r_material 1 1) 5 1 0 = Ok 0).
  { unfold average_bulk_binding_energy. cbn [r_material mat_geometry mesh0d_geometry g_get_concentrations bind mat_Eb m0_concentrations r_mesh].
    rewrite weighted_sum_R. cbn. f_equal. ring. }
  rewrite Hb. cbv beta iota.
  match goal with |- context [keep_recoil ?a ?b ?c ?d] => set (kr := keep_recoil a b c d) end.
  assert (Hk : kr = Ok true).
  { unfold kr, keep_recoil. cbn [r_options o_track_recoils o_suppress_deep_recoils andb].
    f_equal. cbn [p_E p_Ec set_p_dir_old rotate set_p_dir set_p_energy_origin set_p_E]. rewrite Hec, HT.
    toR. apply nlt_true. lra. }
  rewrite Hk. unfold mbind, mlift, mret. eexists _, _, _, _. split; [reflexivity|].
  cbn [cs_particle_1 cs_particles]. split; [reflexivity|]. split; [reflexivity|]. split.
  - match goal with |- context [if ?c then _ else _] => destruct c end;
      cbn [p_E rotate set_p_dir set_p_E set_p_number_collision_events r_deep r_ion]; rewrite HT; toR; lra.
  - cbn [p_E set_p_dir_old rotate set_p_dir set_p_energy_origin set_p_E]. rewrite HT. toR. lra.
Qed.
