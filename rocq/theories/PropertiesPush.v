(** * PropertiesPush.v - C91: which way a collision deflects *)
From Coq Require Import ZArith List Bool Lia Reals Lra.
From Verif Require Import Num NumR ModelTypes ModelConsts ModelParticle ModelInteractions ModelGeometry ModelMaterial ModelBca.
From Verif Require Import Spec SpecR ProofsInteractions ProofsBase ProofsBca ProofsStep ProofsKinematics ProofsSampling ProofsEnergy ProofsLoss ProofsRefute ProofsPush ToyR.
Import ListNotations.
Open Scope R_scope.

(** ** C91: a repulsive collision pushes the projectile away from its partner *)
(** What holds: when the partner is at a right angle to the flight (which needs
    cos phi * cosx * cosz = 0, or a head-on collision), the projectile turns away
    from it and the recoil is pushed ahead. *)
Theorem C91_collision_pushes_partial :
  forall (build : Build R) (mat : Material R) (options : Options R) k bcg cs rng n cs' n' i p2,
    let before := cs_particle_1 cs in
    let after := cs_particle_1 cs' in
    let gap := vminus (p_pos p2) (vplus (p_pos before) (vscale (bcg_mfp bcg) (p_dir before))) in
    is_unit (p_dir before) -> off_axis (p_dir before) -> 0 < p_m before -> Forall (fun m => 0 < m) (mat_m mat) ->
    0 <= bcg_impact_parameter bcg ->
    bcg_impact_parameter bcg * cos (bcg_phi_azimuthal bcg) * vx (p_dir before) * vz (p_dir before) = 0 ->
    choose_collision_partner mat options before bcg rng n = Ok ((i, p2), n') ->
    collision_step build mat options k bcg cs rng n = Ok (cs', n') ->
    vdot gap (p_dir before) = 0 /\
    vdot gap (p_dir after) <= 0 /\
    (forall r, cs_particles cs' = r :: cs_particles cs -> 0 <= vdot gap (p_dir r)) /\
    (forall c, calculate_binary_collision build before p2 bcg options = Ok (Some c) -> sin (bcr_theta c) <> 0 ->
       0 < bcg_impact_parameter bcg -> in_material mat (p_pos p2) = true -> in_barrier mat (p_pos before) = Ok true ->
       vdot gap (p_dir after) < 0 /\
       (forall r, cs_particles cs' = r :: cs_particles cs -> 0 < vdot gap (p_dir r))).
Proof.
  intros build mat options k bcg cs rng n cs' n' i p2 before after gap Hu Hx Hm Hms Hp He Hc H.
  pose proof (partner_inv _ _ _ _ _ _ _ _ _ Hc) as (Hpos & _).
  assert (Hgap : gap = offset_of (p_pos before) (p_dir before) bcg) by (unfold gap, offset_of; rewrite Hpos; reflexivity).
  assert (D : forall psi, vdot gap (p_dir before) = 0 /\ vdot gap (rotate_dir (p_dir before) psi (bcg_phi_azimuthal bcg)) = - bcg_impact_parameter bcg * sin psi).
  { intros psi. destruct (offset_dots (p_pos before) (p_dir before) bcg psi Hu Hx) as (_ & _ & D1 & D2).
    rewrite He in D1, D2. rewrite Hgap, D1, D2. split; ring. }
  assert (Hneq : forall (l : list (Particle R)) r, l <> r :: l).
  { intros l r E. apply (f_equal (@length _)) in E. cbn in E. lia. }
  split; [apply (D 0)|].
  destruct (collision_directions _ _ _ _ _ _ _ _ _ _ _ _ Hu Hx Hm Hms Hc H) as [->|(r & sp & spr & Hr & H1 & H2 & H3 & E1 & E2 & Hd & Hrec)].
  - unfold after. split; [right; apply (D 0)|]. split; [intros r E; exfalso; exact (Hneq _ _ E)|].
    intros c Hcb Hs Hp' Hin Hb. exfalso.
    apply collision_step_inv in H. destruct H as (i' & p2' & b & Hc' & Hb' & [(Hno & _)|(_ & r' & bulk & keep & Hr' & _ & _ & E)]).
    + unfold before in Hc. rewrite Hc in Hc'. apply ok_inj in Hc'. injection Hc' as <- <-. rewrite Hin in Hno. unfold before in Hb. rewrite Hb in Hb'. injection Hb' as <-. discriminate Hno.
    + unfold before in Hc, Hcb. rewrite Hc in Hc'. apply ok_inj in Hc'. injection Hc' as <- <-. rewrite Hcb in Hr'. apply ok_inj in Hr'. injection Hr' as <-.
      apply (f_equal (@cs_particle_1 R)) in E. cbn in E.
      assert (Hdir : p_dir before = rotate_dir (p_dir before) (bcr_psi c) (bcg_phi_azimuthal bcg)).
      { unfold before at 1. rewrite E. unfold projectile_after, rotate. destruct (_ && _); reflexivity. }
      destruct (D (bcr_psi c)) as (D1 & D2). rewrite <- Hdir in D2. rewrite D1 in D2.
      apply cbc_kinematics in Hcb. destruct Hcb as (a & x0 & coul & Er).
      assert (H2' : 0 < p_m p2).
      { rewrite Forall_forall in Hms. apply Hms. eapply nth_error_In.
        pose proof (partner_inv _ _ _ _ _ _ _ _ _ Hc) as (_ & _ & _ & _ & _ & _ & Ha & _). apply Ha. }
      destruct (psi_sign (p_m before) (p_m p2) (p_E before) a x0 (bcr_theta c) coul Hm H2') as (_ & _ & P).
      unfold before in P. rewrite <- Er in P. destruct (P Hs) as (P1 & _). clear - P1 D2 Hp'.
      pose proof (Rmult_lt_0_compat _ _ Hp' P1). lra.
  - fold before after in Hd, Hrec, Hr. destruct (D (bcr_psi r)) as (_ & D1). rewrite <- Hd, <- E1 in D1.
    assert (D2 : forall p2', cs_particles cs' = p2' :: cs_particles cs -> vdot gap (p_dir p2') = bcg_impact_parameter bcg * spr).
    { intros p2' E. destruct Hrec as [E'|(q & E' & Hq)]; [exfalso; rewrite E' in E; exact (Hneq _ _ E)|].
      rewrite E' in E. injection E as ->. destruct (D (- bcr_psi_recoil r)) as (_ & D2). rewrite <- Hq, sin_neg, <- E2 in D2. rewrite D2. ring. }
    split; [rewrite D1; pose proof (Rmult_le_pos _ _ Hp H1); lra|].
    split; [intros p2' E; rewrite (D2 _ E); apply Rmult_le_pos; assumption|].
    intros c Hcb Hs Hp' _ _. rewrite Hcb in Hr. apply ok_inj in Hr. injection Hr as ->.
    destruct (H3 Hs) as (S1 & S2).
    split; [rewrite D1; pose proof (Rmult_lt_0_compat _ _ Hp' S1); lra|].
    intros p2' E. rewrite (D2 _ E). apply Rmult_lt_0_compat; assumption.
Qed.
Print Assumptions C91_collision_pushes_partial.

(** ** concrete collisions in the target of [ToyR] *)
Definition r_dir (d : Vector R) : Particle R := set_p_dir d (r_ion 1 5 0 1).
Lemma r_keep options p1 p2 : exists b, keep_recoil (r_material 1 1) options p1 p2 = Ok b.
Proof.
  unfold keep_recoil. destruct (_ && _); [|eexists; reflexivity].
  unfold total_number_density, mat_closest_point. cbn [r_material mat_geometry mesh0d_geometry g_get_densities g_closest_point bind]. eexists. reflexivity.
Qed.
Lemma r_hits build options d bcg :
  let pos := recoil_position (mkV 5 0 0) (p_dir (r_dir d)) bcg in 0 < vx pos ->
  exists p2, choose_collision_partner (r_material 1 1) options (r_dir d) bcg zero_rng 0%nat = Ok ((0%nat, p2), 1%nat) /\
    p_m p2 = 2 /\ p_Z p2 = 1 /\ p_interaction_index p2 = 0%nat /\ p_pos p2 = pos /\
    in_material (r_material 1 1) (p_pos p2) = true /\ in_barrier (r_material 1 1) (p_pos (r_dir d)) = Ok true /\
    forall r, calculate_binary_collision build (r_dir d) p2 bcg options = Ok (Some r) ->
    exists cs', collision_step build (r_material 1 1) options 0 bcg (mkCS (r_dir d) [] 0 0 0 0 0%nat) zero_rng 0%nat = Ok (cs', 1%nat) /\
      p_dir (cs_particle_1 cs') = rotate_dir d (bcr_psi r) (bcg_phi_azimuthal bcg).
Proof.
  intros pos Hpos.
  assert (Hc : exists p2, choose_collision_partner (r_material 1 1) options (r_dir d) bcg zero_rng 0%nat = Ok ((0%nat, p2), 1%nat) /\
    p_m p2 = 2 /\ p_Z p2 = 1 /\ p_interaction_index p2 = 0%nat /\ p_pos p2 = pos).
  { unfold choose_collision_partner, choose, mbind, mrandom, mlift, mret. rewrite r_chooses by (unfold zero_rng; lra).
    eexists. split; [reflexivity|]. cbn [p_m p_Z p_interaction_index p_pos p_Ec set_p_tracked_vector set_p_tag set_p_weight particle_new s_m s_Z s_interaction_index s_Ec].
    split; [reflexivity|]. split; [reflexivity|]. split; [reflexivity|]. unfold pos. change (p_pos (r_dir d)) with (mkV 5 0 0). destruct (recoil_position _ _ _). reflexivity. }
  destruct Hc as (p2 & Hc & Hm & HZ & Hi & Hp). exists p2. split; [exact Hc|]. split; [exact Hm|]. split; [exact HZ|]. split; [exact Hi|]. split; [exact Hp|].
  assert (Hin : in_material (r_material 1 1) (p_pos p2) = true).
  { rewrite Hp. unfold in_material. cbn [r_material mat_geometry mesh0d_geometry g_inside]. apply nlt_true. rewrite nZ_R. exact Hpos. }
  assert (Hb : in_barrier (r_material 1 1) (p_pos (r_dir d)) = Ok true).
  { unfold in_barrier. cbn [r_dir set_p_dir r_ion p_pos vx vy vz r_material mat_geometry mesh0d_geometry g_inside_energy_barrier m0_energy_barrier_thickness r_mesh].
    pose proof r_thickness. f_equal. apply nlt_true. toR. lra. }
  split; [exact Hin|]. split; [exact Hb|].
  intros r Hr. unfold collision_step. cbn [cs_particle_1]. unfold mbind at 1. rewrite Hc.
  unfold mbind at 1, mlift at 1.
  change (mat_inside_energy_barrier (r_material 1 1) (vx (p_pos (r_dir d))) (vy (p_pos (r_dir d))) (vz (p_pos (r_dir d))))
    with (in_barrier (r_material 1 1) (p_pos (r_dir d))). rewrite Hb.
  change (mat_inside (r_material 1 1) (vx (p_pos p2)) (vy (p_pos p2)) (vz (p_pos p2))) with (in_material (r_material 1 1) (p_pos p2)).
  rewrite Hin. cbv beta iota. cbn [andb]. unfold unwrap_ok. rewrite Hr. cbn [bind]. unfold mbind at 1, mlift at 1.
  assert (Hbb : exists b, average_bulk_binding_energy (r_material 1 1) (vx (p_pos p2)) (vy (p_pos p2)) (vz (p_pos p2)) = Ok b).
  { unfold average_bulk_binding_energy. cbn [r_material mat_geometry mesh0d_geometry g_get_concentrations bind]. eexists. reflexivity. }
  destruct Hbb as (b & Hbb). unfold mbind at 1, mlift at 1. rewrite Hbb. cbv beta iota.
  match goal with |- context [keep_recoil _ _ ?a ?b] => destruct (r_keep options a b) as (kb & Hkb) end.
  unfold mbind at 1, mlift at 1. rewrite Hkb. unfold mret. eexists. split; [reflexivity|]. cbn [cs_particle_1].
  match goal with |- context [if ?c then _ else _] => destruct c end; reflexivity.
Qed.
(** an abbreviated form: the quadrature without nodes gives theta = pi *)
Lemma r_back d p phi p2 : p_m p2 = 2 -> p_interaction_index p2 = 0%nat ->
  exists r, calculate_binary_collision None (r_dir d) p2 (mkBCG phi p 1) r_options = Ok (Some r) /\ bcr_theta r = PI /\ bcr_psi r = PI.
Proof.
  intros Hm Hi. unfold calculate_binary_collision. rewrite Hi, Hm.
  assert (Hd : exists x0, distance_of_closest_approach None (r_dir d) p2 (mkBCG phi p 1) r_options = Ok x0).
  { unfold distance_of_closest_approach. rewrite Hi. eexists. reflexivity. }
  destruct Hd as (x0 & ->). change (p_interaction_index (r_dir d)) with 0%nat.
  change (idx2 (o_interaction_potential r_options) 0 0) with (Ok (COULOMB 1 1 : InteractionPotential R)).
  change (idx2 (o_scattering_integral r_options) 0 0) with (Ok (GAUSS_MEHLER 0)).
  cbn [bind scattering_angle].
  assert (Ht : forall a b c d e f g h, gauss_mehler a b c d e f g h 0 = Ok PI).
  { intros. unfold gauss_mehler, scattering_integral_gauss_mehler. cbn [seq map zip combine mapM bind].
    rewrite nsum_R. toR. cbn. f_equal. ring. }
  rewrite Ht. cbn [bind]. eexists. split; [reflexivity|]. split; [reflexivity|].
  cbn [collision_kinematics bcr_psi]. change (p_m (r_dir d)) with 1. toR. rewrite sin_PI, cos_PI.
  unfold Ratan2. destruct (Rlt_dec 0 (1 / 2 + -1)); [lra|]. destruct (Rlt_dec (1 / 2 + -1) 0); [|lra].
  destruct (Rle_dec 0 0); [|lra]. unfold Rdiv at 1. rewrite Rmult_0_l, atan_0, Rplus_0_l. apply Rabs_right. pose proof PI_RGT_0. lra.
Qed.

(** ** collisions with a Lennard-Jones potential (sigma = 1), one quadrature node,
    and a root finder that returns the squared distance [x] *)
Definition lj_options (eps : R) : Options R := {|
  o_track_trajectories := false; o_track_recoils := true; o_track_recoil_trajectories := false;
  o_write_buffer_size := 8%nat; o_weak_collision_order := 0%nat; o_suppress_deep_recoils := false;
  o_high_energy_free_flight_paths := false; o_electronic_stopping_mode := LOW_ENERGY_NONLOCAL;
  o_mean_free_path_model := LIQUID;
  o_interaction_potential := [[LENNARD_JONES_12_6 1 eps]];
  o_scattering_integral := [[GAUSS_MEHLER 1]];
  o_root_finder := [[POLYNOMIAL (1 / 10)]];
  o_num_threads := 1%nat; o_num_chunks := 1%nat; o_use_hdf5 := false;
  o_track_displacements := true; o_track_energy_losses := true |}.
Definition lj_build (x : R) : Build R := Some (mkCprQueries (fun _ _ => Some [x]) (fun _ _ _ _ _ _ _ _ _ _ _ _ => Ok None)).
Definition lj (eps r2 : R) : R := 4 * eps * ((/ r2) ^ 6 - (/ r2) ^ 3).
Lemma lj_collision eps x p phi d p2 : 0 < x -> p_m p2 = 2 -> p_Z p2 = 1 -> p_interaction_index p2 = 0%nat ->
  exists r, calculate_binary_collision (lj_build x) (r_dir d) p2 (mkBCG phi p 1) (lj_options eps) = Ok (Some r) /\
    bcr_theta r = PI * (1 - (sqrt 2 / 2) * (p / sqrt x) / sqrt (1 - lj eps (2 * x) / (2 / 3) - p * p / (2 * x))).
Proof.
  intros Hx Hm HZ Hi. unfold calculate_binary_collision. rewrite Hi, Hm, HZ.
  change (p_interaction_index (r_dir d)) with 0%nat.
  change (idx2 (o_interaction_potential (lj_options eps)) 0 0) with (Ok (LENNARD_JONES_12_6 1 eps)).
  change (idx2 (o_scattering_integral (lj_options eps)) 0 0) with (Ok (GAUSS_MEHLER 1)).
  change (p_Z (r_dir d)) with 1. change (p_m (r_dir d)) with 1. change (p_E (r_dir d)) with 1. cbn [bind].
  set (a := screening_length 1 1 (LENNARD_JONES_12_6 1 eps)).
  assert (Ha : a <> 0).
  { pose proof (screening_length_pos 1 1 MOLIERE I ltac:(lra) ltac:(lra)). change a with (screening_length 1 1 (MOLIERE : InteractionPotential R)). lra. }
  assert (Hd : distance_of_closest_approach (lj_build x) (r_dir d) p2 (mkBCG phi p 1) (lj_options eps) = Ok (sqrt x / a)).
  { unfold distance_of_closest_approach. rewrite Hi, Hm, HZ. reflexivity. }
  rewrite Hd. cbn [bind scattering_angle bcg_impact_parameter].
  assert (Hs2 : sqrt 2 * sqrt 2 = 2) by (apply sqrt_sqrt; lra).
  assert (H2p : 0 < sqrt 2) by (apply sqrt_lt_R0; lra).
  pose proof (sqrt_lt_R0 _ Hx) as Hsx. pose proof (sqrt_sqrt x (Rlt_le _ _ Hx)) as Hsx2.
  assert (Hg : gauss_mehler 1 1 1 2 1 p (sqrt x / a) (LENNARD_JONES_12_6 1 eps) 1 =
    Ok (PI * (1 - (sqrt 2 / 2) * (p / sqrt x) / sqrt (1 - lj eps (2 * x) / (2 / 3) - p * p / (2 * x))))).
  { unfold gauss_mehler, scattering_integral_gauss_mehler. fold a.
    cbn [seq map zip combine mapM fst snd].
    assert (Hang : gm_angle 1 1 = PI / 4). { unfold gm_angle. toR. cbn [INR]. field. }
    unfold scattering_function_gm, gm_node, gm_weight. rewrite Hang.
    cbn [interaction_potential bind].
    change (nis_nan _) with false. cbv iota. cbn [bind fst snd].
    f_equal. rewrite nsum_R. cbn [fold_right]. unfold lennard_jones. toR. rewrite cos_PI4, sin_PI4.
    replace (sqrt x / a * a) with (sqrt x) by (field; exact Ha).
    assert (Hr : 1 / (sqrt x / (1 / sqrt 2)) = / sqrt (2 * x)).
    { rewrite sqrt_mult by lra. field. lra. }
    rewrite Hr.
    assert (Hq : 0 < sqrt (2 * x)) by (apply sqrt_lt_R0; lra).
    rewrite !npowf_pos by (apply Rinv_0_lt_compat; exact Hq).
    replace (Rpower (/ sqrt (2 * x)) 12) with ((/ (2 * x)) ^ 6).
    2:{ replace 12 with (INR 12) by (cbn; lra). rewrite Rpower_pow by (apply Rinv_0_lt_compat; exact Hq).
        rewrite <- (sqrt_sqrt (2 * x)) at 1 by lra. field. lra. }
    replace (Rpower (/ sqrt (2 * x)) 6) with ((/ (2 * x)) ^ 3).
    2:{ replace 6 with (INR 6) by (cbn; lra). rewrite Rpower_pow by (apply Rinv_0_lt_compat; exact Hq).
        rewrite <- (sqrt_sqrt (2 * x)) at 1 by lra. field. lra. }
    fold (lj eps (2 * x)).
    replace (1 * 2 / (1 + 2)) with (2 / 3) by field.
    replace (p * (1 / sqrt 2) / sqrt x * (p * (1 / sqrt 2) / sqrt x)) with (p * p / (2 * x)).
    2:{ rewrite <- Hsx2 at 1. rewrite <- Hs2 at 1. field. lra. }
    replace (sqrt 2 / 2) with (1 / sqrt 2).
    2:{ apply Rmult_eq_reg_l with (sqrt 2); [|lra]. transitivity 1; [field; lra|]. unfold Rdiv. rewrite <- Rmult_assoc, Hs2. field. }
    cbn [INR]. unfold Rdiv. ring_simplify. rewrite Rinv_1. ring. }
  rewrite Hg. cbn [bind]. change (nis_nan _) with false. cbv iota. eexists. split; [reflexivity|]. reflexivity.
Qed.
(** the distance is the turning point: all of the relative energy (2/3) is
    potential or centrifugal *)
Definition turning (eps x p : R) : Prop := 2 / 3 - lj eps x - 2 / 3 * (p * p) / x = 0.

Lemma angle_ratio p x rad lo hi : 0 < x -> 0 < p -> 0 < rad -> 0 <= lo -> 0 <= hi ->
  lo * lo < p * p / (2 * x) / rad < hi * hi ->
  lo < (sqrt 2 / 2) * (p / sqrt x) / sqrt rad < hi.
Proof.
  intros Hx Hp Hr Hlo Hhi H. pose proof (sqrt_lt_R0 _ Hx) as S1. pose proof (sqrt_lt_R0 _ Hr) as S2.
  assert (S3 : 0 < sqrt 2) by (apply sqrt_lt_R0; lra).
  assert (E : ((sqrt 2 / 2) * (p / sqrt x) / sqrt rad) * ((sqrt 2 / 2) * (p / sqrt x) / sqrt rad) = p * p / (2 * x) / rad).
  { rewrite <- (sqrt_sqrt x) at 3 by lra. rewrite <- (sqrt_sqrt rad) at 3 by lra.
    transitivity ((sqrt 2 * sqrt 2) / 4 * (p * p) / (sqrt x * sqrt x) / (sqrt rad * sqrt rad)); [field; lra|].
    rewrite (sqrt_sqrt 2) by lra. field. lra. }
  assert (Hpos : 0 < (sqrt 2 / 2) * (p / sqrt x) / sqrt rad).
  { repeat apply Rmult_lt_0_compat; try apply Rinv_0_lt_compat; lra. }
  split; nra.
Qed.
Lemma vdot_dir_y : is_unit (mkV 0 1 0 : Vector R) /\ off_axis (mkV 0 1 0 : Vector R).
Proof. split; [unfold is_unit, vdot; cbn; ring|unfold off_axis; cbn; rewrite Rabs_R0; lra]. Qed.
Lemma lj_hits x eps p : 0 < x -> 0 < p < 5 -> exists p2 r cs',
  choose_collision_partner (r_material 1 1) (lj_options eps) (r_dir (mkV 0 1 0)) (mkBCG 0 p 1) zero_rng 0%nat = Ok ((0%nat, p2), 1%nat) /\
  calculate_binary_collision (lj_build x) (r_dir (mkV 0 1 0)) p2 (mkBCG 0 p 1) (lj_options eps) = Ok (Some r) /\
  bcr_theta r = PI * (1 - (sqrt 2 / 2) * (p / sqrt x) / sqrt (1 - lj eps (2 * x) / (2 / 3) - p * p / (2 * x))) /\
  collision_step (lj_build x) (r_material 1 1) (lj_options eps) 0 (mkBCG 0 p 1) (mkCS (r_dir (mkV 0 1 0)) [] 0 0 0 0 0%nat) zero_rng 0%nat = Ok (cs', 1%nat) /\
  in_material (r_material 1 1) (p_pos p2) = true /\ in_barrier (r_material 1 1) (p_pos (r_dir (mkV 0 1 0))) = Ok true.
Proof.
  intros Hx Hp.
  destruct (r_hits (lj_build x) (lj_options eps) (mkV 0 1 0) (mkBCG 0 p 1)) as (p2 & Hc & Hm & HZ & Hi & _ & Hin & Hb & Hstep).
  { unfold recoil_position. cbn [vx vy vz bcg_impact_parameter bcg_mfp bcg_phi_azimuthal r_dir set_p_dir p_dir]. toR. rewrite cos_0. replace (1 - 0 * 0) with 1 by ring. rewrite sqrt_1. lra. }
  destruct (lj_collision eps x p 0 (mkV 0 1 0) p2 Hx Hm HZ Hi) as (r & Hr & Ht).
  destruct (Hstep r Hr) as (cs' & Hs & _). exists p2, r, cs'. split; [exact Hc|]. split; [exact Hr|]. split; [exact Ht|]. split; [exact Hs|]. split; [exact Hin|exact Hb].
Qed.
(** a repulsive collision: half of the energy is potential at the turning point *)
Example C91_applies : exists p2 r cs',
  turning ((2 / 3) / 448) (1 / 2) (1 / 2) /\
  choose_collision_partner (r_material 1 1) (lj_options ((2 / 3) / 448)) (r_dir (mkV 0 1 0)) (mkBCG 0 (1 / 2) 1) zero_rng 0%nat = Ok ((0%nat, p2), 1%nat) /\
  calculate_binary_collision (lj_build (1 / 2)) (r_dir (mkV 0 1 0)) p2 (mkBCG 0 (1 / 2) 1) (lj_options ((2 / 3) / 448)) = Ok (Some r) /\
  0 < bcr_theta r < PI /\
  collision_step (lj_build (1 / 2)) (r_material 1 1) (lj_options ((2 / 3) / 448)) 0 (mkBCG 0 (1 / 2) 1) (mkCS (r_dir (mkV 0 1 0)) [] 0 0 0 0 0%nat) zero_rng 0%nat = Ok (cs', 1%nat) /\
  in_material (r_material 1 1) (p_pos p2) = true /\ in_barrier (r_material 1 1) (p_pos (r_dir (mkV 0 1 0))) = Ok true /\
  is_unit (p_dir (r_dir (mkV 0 1 0))) /\ off_axis (p_dir (r_dir (mkV 0 1 0))) /\
  1 / 2 * cos 0 * vx (p_dir (r_dir (mkV 0 1 0))) * vz (p_dir (r_dir (mkV 0 1 0))) = 0.
Proof.
  destruct (lj_hits (1 / 2) ((2 / 3) / 448) (1 / 2)) as (p2 & r & cs' & H1 & H2 & H3 & H4 & H5 & H6); [lra|lra|].
  exists p2, r, cs'. split; [unfold turning, lj; field|]. split; [exact H1|]. split; [exact H2|]. split.
  - rewrite H3. replace (1 - lj ((2 / 3) / 448) (2 * (1 / 2)) / (2 / 3) - 1 / 2 * (1 / 2) / (2 * (1 / 2))) with (3 / 4) by (unfold lj; field).
    pose proof (angle_ratio (1 / 2) (1 / 2) (3 / 4) 0 1 ltac:(lra) ltac:(lra) ltac:(lra) ltac:(lra) ltac:(lra) ltac:(lra)) as [A1 A2].
    pose proof PI_RGT_0. split; nra.
  - split; [exact H4|]. split; [exact H5|]. split; [exact H6|]. split; [apply vdot_dir_y|]. split; [apply vdot_dir_y|]. cbn. ring.
Qed.

(** What fails, 1: with a slanted flight the sign of one term of the partner's
    position (bca.rs 363-365) is wrong and the partner is not at a right angle to the
    flight; for the direction (0.8, 0, 0.6) and phi = 0 every collision turns the
    projectile towards its partner. *)
Theorem C91_refuted_slanted_flight :
  forall (build : Build R) (mat : Material R) (options : Options R) k bcg cs rng n cs' n' i p2 c,
    let before := cs_particle_1 cs in
    let after := cs_particle_1 cs' in
    let gap := vminus (p_pos p2) (vplus (p_pos before) (vscale (bcg_mfp bcg) (p_dir before))) in
    p_dir before = mkV (8 / 10) 0 (6 / 10) -> bcg_phi_azimuthal bcg = 0 -> 0 < bcg_impact_parameter bcg ->
    0 < p_m before -> Forall (fun m => 0 < m) (mat_m mat) ->
    choose_collision_partner mat options before bcg rng n = Ok ((i, p2), n') ->
    in_material mat (p_pos p2) = true -> in_barrier mat (p_pos before) = Ok true ->
    calculate_binary_collision build before p2 bcg options = Ok (Some c) -> 0 < bcr_psi c <= PI ->
    collision_step build mat options k bcg cs rng n = Ok (cs', n') ->
    vdot gap (p_dir before) < vdot gap (p_dir after).
Proof.
  intros build mat options k bcg cs rng n cs' n' i p2 c before after gap Hd Hphi Hp Hm Hms Hc Hin Hb Hcb Hpsi H.
  assert (Hu : is_unit (p_dir before)) by (rewrite Hd; unfold is_unit, vdot; cbn; lra).
  assert (Hx : off_axis (p_dir before)) by (rewrite Hd; unfold off_axis; cbn; apply Rabs_def1; lra).
  pose proof (partner_inv _ _ _ _ _ _ _ _ _ Hc) as (Hpos & _).
  assert (Hgap : gap = offset_of (p_pos before) (p_dir before) bcg) by (unfold gap, offset_of; rewrite Hpos; reflexivity).
  assert (Hafter : p_dir after = rotate_dir (p_dir before) (bcr_psi c) 0).
  { apply collision_step_inv in H. destruct H as (i' & p2' & b & Hc' & Hb' & [(Hno & _)|(_ & r' & bulk & keep & Hr' & _ & _ & E)]);
    unfold before in Hc; rewrite Hc in Hc'; apply ok_inj in Hc'; injection Hc' as <- <-.
    - rewrite Hin in Hno. unfold before in Hb. rewrite Hb in Hb'. injection Hb' as <-. discriminate Hno.
    - unfold before in Hcb. rewrite Hcb in Hr'. apply ok_inj in Hr'. injection Hr' as <-.
      unfold after. rewrite E. cbn [cs_particle_1]. unfold projectile_after, rotate. rewrite Hphi. destruct (_ && _); reflexivity. }
  rewrite Hafter, Hgap.
  destruct (offset_dots (p_pos before) (p_dir before) bcg (bcr_psi c) Hu Hx) as (_ & _ & D1 & D2).
  rewrite Hphi in D1, D2. rewrite D1, D2, Hd. cbn [vx vy vz]. rewrite cos_0, sin_0.
  replace (1 - 8 / 10 * (8 / 10)) with (6 / 10 * (6 / 10)) by lra. rewrite sqrt_square by lra.
  set (q := bcg_impact_parameter bcg) in *. clearbody q.
  assert (Hs : 0 <= sin (bcr_psi c)) by (apply sin_ge_0; lra).
  assert (Hcos : cos (bcr_psi c) < 1).
  { rewrite <- cos_0. apply cos_decreasing_1; lra. }
  apply Rminus_gt_0_lt.
  match goal with |- 0 < ?e => replace e with (96 / 100 * q * (1 - cos (bcr_psi c)) + 28 / 100 * (q * sin (bcr_psi c))) by field end.
  pose proof (Rmult_le_pos _ _ (Rlt_le _ _ Hp) Hs) as G1.
  pose proof (Rmult_lt_0_compat q (1 - cos (bcr_psi c)) Hp ltac:(lra)) as G2. lra.
Qed.
Print Assumptions C91_refuted_slanted_flight.
Example C91_slanted_applies : exists p2 c cs',
  let d := mkV (8 / 10) 0 (6 / 10) in let bcg := mkBCG 0 1 1 in
  choose_collision_partner (r_material 1 1) r_options (r_dir d) bcg zero_rng 0%nat = Ok ((0%nat, p2), 1%nat) /\
  in_material (r_material 1 1) (p_pos p2) = true /\ in_barrier (r_material 1 1) (p_pos (r_dir d)) = Ok true /\
  calculate_binary_collision None (r_dir d) p2 bcg r_options = Ok (Some c) /\ 0 < bcr_psi c <= PI /\
  collision_step None (r_material 1 1) r_options 0 bcg (mkCS (r_dir d) [] 0 0 0 0 0%nat) zero_rng 0%nat = Ok (cs', 1%nat).
Proof.
  destruct (r_hits None r_options (mkV (8 / 10) 0 (6 / 10)) (mkBCG 0 1 1)) as (p2 & Hc & Hm & HZ & Hi & _ & Hin & Hb & Hstep).
  { unfold recoil_position. cbn [vx vy vz bcg_impact_parameter bcg_mfp bcg_phi_azimuthal r_dir set_p_dir p_dir]. toR. rewrite cos_0. replace (1 - 8 / 10 * (8 / 10)) with (6 / 10 * (6 / 10)) by lra. rewrite sqrt_square by lra. lra. }
  destruct (r_back (mkV (8 / 10) 0 (6 / 10)) 1 0 p2 Hm Hi) as (c & Hcb & _ & Hpsi).
  destruct (Hstep c Hcb) as (cs' & Hs & _). exists p2, c, cs'. cbv zeta.
  split; [exact Hc|]. split; [exact Hin|]. split; [exact Hb|]. split; [exact Hcb|]. split; [pose proof PI_RGT_0; lra|exact Hs].
Qed.

(** What fails, 2: the sign of the scattering angle is dropped.  Here the partner
    attracts the projectile (the potential energy at the turning point is negative
    and the scattering angle is negative), and still the projectile is deflected
    away from it. *)
Theorem C91_refuted_attraction :
  exists build eps x p p2 c cs',
    let before := r_dir (mkV 0 1 0) in
    let bcg := mkBCG 0 p 1 in
    let gap := vminus (p_pos p2) (vplus (p_pos before) (vscale (bcg_mfp bcg) (p_dir before))) in
    0 < eps /\ 0 < x /\ 0 < p /\ turning eps x p /\ lj eps x < 0 /\
    choose_collision_partner (r_material 1 1) (lj_options eps) before bcg zero_rng 0%nat = Ok ((0%nat, p2), 1%nat) /\
    distance_of_closest_approach build before p2 bcg (lj_options eps) =
      Ok (sqrt x / screening_length 1 1 (LENNARD_JONES_12_6 1 eps)) /\
    calculate_binary_collision build before p2 bcg (lj_options eps) = Ok (Some c) /\ - PI < bcr_theta c < 0 /\
    collision_step build (r_material 1 1) (lj_options eps) 0 bcg (mkCS before [] 0 0 0 0 0%nat) zero_rng 0%nat = Ok (cs', 1%nat) /\
    vdot gap (p_dir before) = 0 /\ vdot gap (p_dir (cs_particle_1 cs')) < 0.
Proof.
  set (p := sqrt (23 / 8)). assert (Hp : 0 < p) by (apply sqrt_lt_R0; lra).
  assert (Hpp : p * p = 23 / 8) by (apply sqrt_sqrt; lra).
  destruct (lj_hits 2 (2 / 3) p) as (p2 & r & cs' & H1 & H2 & H3 & H4 & H5 & H6); [lra|nra|].
  exists (lj_build 2), (2 / 3), 2, p, p2, r, cs'. cbv zeta.
  assert (Ht : - PI < bcr_theta r < 0).
  { rewrite H3. replace (1 - lj (2 / 3) (2 * 2) / (2 / 3) - p * p / (2 * 2)) with (351 / 1024) by (rewrite Hpp; unfold lj; field).
    pose proof (angle_ratio p 2 (351 / 1024) 1 2 ltac:(lra) ltac:(lra) ltac:(lra) ltac:(lra) ltac:(lra)) as A.
    rewrite Hpp in A. destruct A as [A1 A2]; [lra|]. pose proof PI_RGT_0. split; nra. }
  split; [lra|]. split; [lra|]. split; [exact Hp|]. split; [unfold turning; rewrite Hpp; unfold lj; field|]. split; [unfold lj; lra|].
  split; [exact H1|]. split.
  { pose proof (partner_inv _ _ _ _ _ _ _ _ _ H1) as _.
    destruct (r_hits (lj_build 2) (lj_options (2 / 3)) (mkV 0 1 0) (mkBCG 0 p 1)) as (q2 & Hc & Hm & HZ & Hi & _).
    { unfold recoil_position. cbn [vx vy vz bcg_impact_parameter bcg_mfp bcg_phi_azimuthal r_dir set_p_dir p_dir]. toR. rewrite cos_0. replace (1 - 0 * 0) with 1 by ring. rewrite sqrt_1. nra. }
    rewrite H1 in Hc. apply ok_inj in Hc. injection Hc as ->.
    unfold distance_of_closest_approach. rewrite Hi, Hm, HZ. reflexivity. }
  split; [exact H2|]. split; [exact Ht|]. split; [exact H4|].
  destruct (C91_collision_pushes_partial (lj_build 2) (r_material 1 1) (lj_options (2 / 3)) 0 (mkBCG 0 p 1) (mkCS (r_dir (mkV 0 1 0)) [] 0 0 0 0 0%nat)
     zero_rng 0%nat cs' 1%nat 0%nat p2) as (G1 & _ & _ & G).
  - apply vdot_dir_y.
  - apply vdot_dir_y.
  - cbn. lra.
  - constructor; [lra|constructor].
  - cbn. lra.
  - cbn. ring.
  - exact H1.
  - exact H4.
  - split; [exact G1|]. apply (G r H2); try assumption.
    intros E. assert (0 < sin (- bcr_theta r)) by (apply sin_gt_0; lra). rewrite sin_neg in H. lra.
Qed.
Print Assumptions C91_refuted_attraction.
