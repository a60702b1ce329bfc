(** * PropertiesKinematics.v - theorems about collisions, free flight, the
    surface barrier and energy accounting, in exact (real) arithmetic.

    Vocabulary: SpecR.v (vectors, unit, momentum) and Spec.v. *)
From Coq Require Import ZArith List Bool Lia Reals Lra.
From Verif Require Import Num NumR ModelTypes ModelConsts ModelParticle ModelInteractions ModelGeometry ModelMaterial ModelBca
  Spec SpecR ProofsBase ProofsBca ProofsStep ProofsKinematics ProofsSurface ProofsFlight ProofsEnergy ProofsSampling ProofsHalf
  ToyR ProofsRefute.
Import ListNotations.
Open Scope R_scope.

(** ** C07 *)
(** Random numbers in [0,1) ([unit_randoms]); a half-space target; the ion
    outside the barrier, flying parallel to the surface: no amount of fuel is
    enough, whatever the random numbers. *)
Theorem C07_refuted_parallel_ion_never_ends :
  forall (build : Build R) (mat : Material R) (options : Options R) (g : Mesh0D R)
         (rng : Rng R) (ion : Particle R) (fuel n : nat),
    mat_geometry mat = mesh0d_geometry g -> 0 < Rsum (m0_densities g) -> 0 < m0_energy_barrier_thickness g ->
    (forall r x y z, 0 <= r < 1 -> exists s, choose_with mat r x y z = Ok s) ->
    o_high_energy_free_flight_paths options = false -> o_mean_free_path_model options <> GASEOUS ->
    (forall k, 0 <= rng k < 1) ->
    active ion -> p_asymptotic_deflection ion = 0 -> p_dir_old ion = p_dir ion -> vx (p_dir ion) = 0 ->
    -10 * m0_energy_barrier_thickness g < vx (p_pos ion) < - m0_energy_barrier_thickness g ->
    vx (p_pos ion) <= - (Rpower (Rsum (m0_densities g)) (-1 / 3) / sqrt PI * sqrt (INR (S (o_weak_collision_order options)))) ->
    single_ion_bca build mat options fuel ion rng n = OutOfFuel.
Proof.
  intros build mat options g rng ion fuel n Hg Hd Ht Hc Hf Hl Hr Ha Has Hdo Hdx Hx Hxp.
  apply (parallel_never_ends build mat options g Hg Hd Ht Hc Hf Hl (p_dir ion)); try assumption; try apply Hx.
  repeat split; try assumption; try apply Ha. apply Hx.
Qed.
Print Assumptions C07_refuted_parallel_ion_never_ends.
Example C07_refuted_applies :
  from_input (r_input 1 (-5) 0 1) r_options = Ok (r_ion 1 (-5) 0 1) /\
  forall rng fuel n, (forall k, 0 <= rng k < 1) ->
    single_ion_bca None (r_material 1 1) r_options fuel (r_ion 1 (-5) 0 1) rng n = OutOfFuel.
Proof.
  pose proof r_thickness as (Ht1 & Ht2). split.
  - apply r_ion_accepted; [ring|]. rewrite Rabs_R0. apply Rlt_Rminus. rewrite <- Rinv_1. apply Rinv_lt_contravar; [|apply IZR_lt; reflexivity].
    rewrite Rmult_1_l. apply IZR_lt. reflexivity.
  - intros rng fuel n Hr. apply C07_refuted_parallel_ion_never_ends with (r_mesh 1); try reflexivity; try assumption.
    + cbn. lra.
    + cbn. lra.
    + intros r x y z H. eexists. apply r_chooses. exact H.
    + discriminate.
    + split; reflexivity.
    + cbn. lra.
    + cbn. replace (1 + 0) with 1 by ring. unfold Rpower. rewrite ln_1, Rmult_0_r, exp_0, sqrt_1.
      assert (1 / sqrt PI <= 1); [|lra]. unfold Rdiv in *. lra.
Qed.
(** What does hold: outward-moving ions outside the barrier leave after
    finitely many steps, for all random numbers; and a result once reached is
    the same for every larger amount of fuel. *)
Theorem C07_outward_ion_leaves_partial :
  forall (build : Build R) (mat : Material R) (options : Options R) (g : Mesh0D R)
         (rng : Rng R) (ion : Particle R) (n : nat),
    mat_geometry mat = mesh0d_geometry g -> 0 < Rsum (m0_densities g) -> 0 < m0_energy_barrier_thickness g ->
    (forall r x y z, 0 <= r < 1 -> exists s, choose_with mat r x y z = Ok s) ->
    o_high_energy_free_flight_paths options = false -> o_mean_free_path_model options <> GASEOUS ->
    (forall k, 0 <= rng k < 1) ->
    active ion -> p_asymptotic_deflection ion = 0 -> p_dir_old ion = p_dir ion -> -1 <= vx (p_dir ion) < 0 ->
    vx (p_pos ion) < - m0_energy_barrier_thickness g ->
    vx (p_pos ion) <= - (Rpower (Rsum (m0_densities g)) (-1 / 3) / sqrt PI * sqrt (INR (S (o_weak_collision_order options)))) ->
    exists N ion' n', p_left ion' = true /\
      forall fuel, (N <= fuel)%nat -> single_ion_bca build mat options fuel ion rng n = Ok ([ion'], n').
Proof.
  intros build mat options g rng ion n Hg Hd Ht Hc Hf Hl Hr Ha Has Hdo Hdx Hx Hxp.
  apply (outward_leaves build mat options g Hg Hd Ht Hc Hf Hl (p_dir ion)); try assumption.
  repeat split; try assumption; apply Ha.
Qed.
Print Assumptions C07_outward_ion_leaves_partial.
Theorem C07_results_do_not_depend_on_fuel_partial :
  forall (F : Type) (NF : Num F) (build : Build F) (mat : Material F) (options : Options F)
         (fuel fuel' : nat) (ion : Particle F) (rng : Rng F) (n : nat) (r : Res (list (Particle F) * nat)),
    (fuel <= fuel')%nat -> single_ion_bca build mat options fuel ion rng n = r -> r <> OutOfFuel ->
    single_ion_bca build mat options fuel' ion rng n = r.
Proof. intros F NF. exact single_ion_mono. Qed.
Print Assumptions C07_results_do_not_depend_on_fuel_partial.

(** ** C08: [energy_ok p]: E >= 0, m > 0, Es >= 0, |dir| <= 1; [physical]:
    positive masses, non-negative binding and cutoff energies and concentrations. *)
Theorem C08_energies_never_negative :
  forall (build : Build R) (mat : Material R) (options : Options R) (fuel : nat) (ion : Particle R)
         (rng : Rng R) (n : nat) (out : list (Particle R)) (n' : nat),
    physical mat -> 0 <= p_E ion -> 0 < p_m ion -> 0 <= p_Es ion -> vdot (p_dir ion) (p_dir ion) <= 1 ->
    single_ion_bca build mat options fuel ion rng n = Ok (out, n') ->
    Forall (fun p => 0 <= p_E p) out.
Proof.
  intros build mat options fuel ion rng n out n' Hph HE Hm HEs Hd H.
  apply run_energy_ok in H; [|exact Hph|split; assumption].
  eapply Forall_impl; [|exact H]. intros p Hp. apply Hp.
Qed.
Print Assumptions C08_energies_never_negative.
(** the same for the particle in flight and the whole stack after any step *)
Theorem C08_energies_never_negative_in_flight :
  forall (build : Build R) (mat : Material R) (options : Options R) p particles rng n p' particles' n',
    physical mat -> active p -> energy_ok p -> Forall energy_ok particles ->
    bca_step build mat options p particles rng n = Ok ((p', particles'), n') ->
    energy_ok p' /\ Forall energy_ok particles'.
Proof. exact bca_step_energy_ok. Qed.
Print Assumptions C08_energies_never_negative_in_flight.
Example C08_applies : physical (r_material 1 1) /\ energy_ok r_refl /\
  exists p1 n1, bca_step None (r_material 1 1) r_options r_refl [] zero_rng 0%nat = Ok ((p1, []), n1).
Proof.
  split; [apply r_physical; lra|]. split; [split; cbn; try lra; unfold short, vdot; cbn; lra|].
  destruct r_reflection as (p1 & n1 & _ & _ & H & _). exists p1, n1. exact H.
Qed.

(** ** C09 *)
Theorem C09_recoil_energy_between_zero_and_kinematic_maximum :
  forall (build : Build R) (p1 p2 : Particle R) (bcg : BinaryCollisionGeometry R) (options : Options R) r,
    0 < p_m p1 -> 0 < p_m p2 -> 0 <= p_E p1 ->
    calculate_binary_collision build p1 p2 bcg options = Ok (Some r) ->
    0 <= bcr_recoil_energy r /\
    bcr_recoil_energy r <= 4 * p_m p1 * p_m p2 / ((p_m p1 + p_m p2) * (p_m p1 + p_m p2)) * p_E p1 /\
    4 * p_m p1 * p_m p2 / ((p_m p1 + p_m p2) * (p_m p1 + p_m p2)) * p_E p1 <= p_E p1.
Proof. exact cbc_energy_bounds. Qed.
Print Assumptions C09_recoil_energy_between_zero_and_kinematic_maximum.
(** the head-on collision of the ion of ToyR reaches the maximum 8/9 *)
Example C09_applies : exists p2 r, calculate_binary_collision None r_deep p2 r_bcg r_options = Ok (Some r) /\
  0 < p_m r_deep /\ 0 < p_m p2 /\ 0 <= p_E r_deep /\ bcr_recoil_energy r = 8 / 9 /\ bcr_theta r = PI.
Proof.
  destruct r_partner as (p2 & _ & Hm & Hi & _). destruct (r_collision p2 Hm Hi) as (r & Hr & Ht & HT).
  exists p2, r. rewrite Hm. cbn. repeat split; try assumption; lra.
Qed.

(** ** C10, C69: one collision of the transport loop *)
Theorem C10_collision_conserves_energy_and_momentum :
  forall (build : Build R) (mat : Material R) (options : Options R) k bcg (cs cs' : CollisionState R) rng n n',
    is_unit (p_dir (cs_particle_1 cs)) -> off_axis (p_dir (cs_particle_1 cs)) ->
    0 < p_m (cs_particle_1 cs) -> 0 <= p_E (cs_particle_1 cs) -> Forall (fun m => 0 < m) (mat_m mat) ->
    collision_step build mat options k bcg cs rng n = Ok (cs', n') ->
    cs' = cs \/
    exists T bulk p2',
      let p1 := cs_particle_1 cs in
      let p1' := cs_particle_1 cs' in
      average_bulk_binding_energy mat (vx (p_pos p2')) (vy (p_pos p2')) (vz (p_pos p2')) = Ok bulk /\
      (exists i, atom_of_species mat i p2') /\
      0 <= T <= p_E p1 /\
      p_E p1' = p_E p1 - T /\ p_E p2' = T - bulk /\
      cs_total_energy_lost_to_recoils cs' = cs_total_energy_lost_to_recoils cs + T /\
      vplus (momentum (p_m p1') (p_E p1') (p_dir p1')) (momentum (p_m p2') T (p_dir p2'))
        = momentum (p_m p1) (p_E p1) (p_dir p1) /\
      (cs_particles cs' = cs_particles cs \/ cs_particles cs' = p2' :: cs_particles cs).
Proof. intros. eapply collision_step_balance; eassumption. Qed.
Print Assumptions C10_collision_conserves_energy_and_momentum.
(** the same for calculate_binary_collision itself: rotating by psi and
    -psi_recoil about the same azimuth, for every scattering angle *)
Theorem C10_reported_angles_conserve_momentum :
  forall (build : Build R) (p1 p2 : Particle R) (bcg : BinaryCollisionGeometry R) (options : Options R) r phi,
    is_unit (p_dir p1) -> off_axis (p_dir p1) -> 0 < p_m p1 -> 0 < p_m p2 -> 0 <= p_E p1 ->
    calculate_binary_collision build p1 p2 bcg options = Ok (Some r) ->
    let T := bcr_recoil_energy r in
    vplus (momentum (p_m p1) (p_E p1 - T) (p_dir (rotate (bcr_psi r) phi p1)))
          (momentum (p_m p2) T (p_dir (rotate (- bcr_psi_recoil r) phi p1)))
      = momentum (p_m p1) (p_E p1) (p_dir p1).
Proof.
  intros build p1 p2 bcg options r phi Hu Ho Hm1 Hm2 HE H T.
  set (b := mkBCG phi (bcg_impact_parameter bcg) (bcg_mfp bcg)).
  assert (Hb : calculate_binary_collision build p1 (set_p_dir (p_dir p1) p2) b options = Ok (Some r)) by exact H.
  destruct (collision_balance build p1 (set_p_dir (p_dir p1) p2) b options r 1%nat 0 Hu Ho Hm1 Hm2 HE eq_refl Hb) as (E1 & E2 & Hmom).
  rewrite E1, E2 in Hmom. unfold projectile_after, recoil_after in Hmom. rewrite andb_false_r in Hmom.
  cbn [p_m p_dir rotate set_p_dir set_p_E set_p_energy_origin set_p_dir_old bcg_phi_azimuthal b] in Hmom.
  fold T in Hmom. replace (T - 0 + 0) with T in Hmom by ring. exact Hmom.
Qed.
Print Assumptions C10_reported_angles_conserve_momentum.
Theorem C69_collision_energy_bookkeeping :
  forall (build : Build R) (mat : Material R) (options : Options R) k bcg (cs cs' : CollisionState R) rng n n',
    is_unit (p_dir (cs_particle_1 cs)) -> off_axis (p_dir (cs_particle_1 cs)) ->
    0 < p_m (cs_particle_1 cs) -> 0 <= p_E (cs_particle_1 cs) -> Forall (fun m => 0 < m) (mat_m mat) ->
    collision_step build mat options k bcg cs rng n = Ok (cs', n') ->
    forall recoil, cs_particles cs' = recoil :: cs_particles cs ->
    exists bulk,
      average_bulk_binding_energy mat (vx (p_pos recoil)) (vy (p_pos recoil)) (vz (p_pos recoil)) = Ok bulk /\
      p_E (cs_particle_1 cs') + p_E recoil + bulk = p_E (cs_particle_1 cs).
Proof.
  intros build mat options k bcg cs cs' rng n n' Hu Ho Hm HE Hms H recoil Hr.
  destruct (collision_step_balance _ _ _ _ _ _ _ _ _ _ Hu Ho Hm HE Hms H) as [->|(T & bulk & p2' & Hb & _ & _ & E1 & E2 & _ & _ & Hp)].
  - exfalso. apply (f_equal (@length _)) in Hr. cbn in Hr. lia.
  - assert (p2' = recoil).
    { destruct Hp as [Hp|Hp]; rewrite Hp in Hr; [|injection Hr; auto].
      exfalso. apply (f_equal (@length _)) in Hr. cbn in Hr. lia. }
    subst p2'. exists bulk. split; [exact Hb|]. lra.
Qed.
Print Assumptions C69_collision_energy_bookkeeping.
Example C10_C69_apply : exists cs' n' recoil,
  is_unit (p_dir (cs_particle_1 r_cs)) /\ off_axis (p_dir (cs_particle_1 r_cs)) /\
  0 < p_m (cs_particle_1 r_cs) /\ 0 <= p_E (cs_particle_1 r_cs) /\ Forall (fun m => 0 < m) (mat_m (r_material 1 1)) /\
  collision_step None (r_material 1 1) r_options 0 r_bcg r_cs zero_rng 0%nat = Ok (cs', n') /\
  cs_particles cs' = recoil :: cs_particles r_cs /\ p_E (cs_particle_1 cs') = 1 / 9 /\ p_E recoil = 8 / 9.
Proof.
  destruct r_collision_step as (p1' & p2' & cs' & n' & H & H1 & H2 & E1 & E2).
  exists cs', n', p2'. unfold is_unit, off_axis, vdot. cbn. rewrite Rabs_R0, H1.
  repeat split; try assumption; try lra. constructor; [lra|constructor].
Qed.

(** ** C11 *)
Theorem C11_laboratory_angles :
  forall (build : Build R) (p1 p2 : Particle R) (bcg : BinaryCollisionGeometry R) (options : Options R) r,
    0 < p_m p1 -> 0 < p_m p2 -> 0 <= p_E p1 ->
    calculate_binary_collision build p1 p2 bcg options = Ok (Some r) ->
    0 < bcr_theta r <= PI ->
    bcr_psi_recoil r = PI / 2 - bcr_theta r / 2 /\ 0 <= bcr_psi_recoil r <= PI / 2 /\ 0 <= bcr_psi r <= PI /\
    (p_m p1 / p_m p2 + cos (bcr_theta r) <> 0 ->
     tan (bcr_psi r) = sin (bcr_theta r) / (p_m p1 / p_m p2 + cos (bcr_theta r))).
Proof. exact cbc_angles. Qed.
Print Assumptions C11_laboratory_angles.
(** hypotheses met by C09_applies (theta = pi) *)

(** ** C12 *)
Theorem C12_rotate_turns_by_psi :
  forall (p : Particle R) (psi phi : R),
    is_unit (p_dir p) -> off_axis (p_dir p) ->
    is_unit (p_dir (rotate psi phi p)) /\ vdot (p_dir p) (p_dir (rotate psi phi p)) = cos psi /\
    rotate psi phi p = set_p_dir (p_dir (rotate psi phi p)) p.
Proof.
  intros p psi phi Hu Ho. unfold rotate. cbn [p_dir set_p_dir]. rewrite rotate_dir_raw by assumption.
  destruct (raw_rotate_unit (p_dir p) psi phi Hu Ho). repeat split; assumption.
Qed.
Print Assumptions C12_rotate_turns_by_psi.
Example C12_applies : is_unit (p_dir r_refl) /\ off_axis (p_dir r_refl).
Proof. unfold is_unit, off_axis, vdot. cbn. split; [lra|]. unfold Rabs. destruct (Rcase_abs _); lra. Qed.

(** ** C13: an accepted direction, a deflection by pi/2 with azimuth 0 *)
Theorem C13_refuted_rotation_onto_the_axis :
  exists (input : ParticleInput R) (options : Options R) (p : Particle R) (psi phi : R),
    from_input input options = Ok p /\ 0 <= phi < 2 * PI /\ 0 <= psi <= PI /\
    p_dir (rotate psi phi p) = mkV 1 0 0.
Proof.
  exists (r_input 1 (-5) 0 1), r_options, (r_ion 1 (-5) 0 1), (PI / 2), 0.
  split; [apply C07_refuted_applies|]. pose proof PI_RGT_0. split; [lra|]. split; [lra|].
  exact rotate_to_pole.
Qed.
Print Assumptions C13_refuted_rotation_onto_the_axis.
Theorem C13_generic_deflections_stay_off_axis_partial :
  forall (p : Particle R) (psi phi : R),
    is_unit (p_dir p) -> off_axis (p_dir p) -> sin psi <> 0 -> sin phi <> 0 ->
    off_axis (p_dir (rotate psi phi p)).
Proof. intros p psi phi. exact (rotate_off_axis (p_dir p) psi phi). Qed.
Print Assumptions C13_generic_deflections_stay_off_axis_partial.

(** ** C14: the offset of the partner from the end of the free path is
    perpendicular to the direction only in special cases; then (and then) its
    length is the impact parameter. *)
Theorem C14_refuted_offset_not_perpendicular :
  forall (mat : Material R) (options : Options R) (p1 : Particle R) bcg rng n i p2 n',
    is_unit (p_dir p1) -> off_axis (p_dir p1) ->
    choose_collision_partner mat options p1 bcg rng n = Ok ((i, p2), n') ->
    bcg_impact_parameter bcg * cos (bcg_phi_azimuthal bcg) * vx (p_dir p1) * vz (p_dir p1) <> 0 ->
    vdot (vminus (p_pos p2) (vplus (p_pos p1) (vscale (bcg_mfp bcg) (p_dir p1)))) (p_dir p1) <> 0.
Proof.
  intros mat options p1 bcg rng n i p2 n' Hu Ho H Hne E.
  destruct (partner_inv _ _ _ _ _ _ _ _ _ H) as (Hp & _). rewrite Hp in E.
  apply Hne. apply (recoil_offset_iff (p_pos p1) (p_dir p1) bcg Hu Ho). exact E.
Qed.
Print Assumptions C14_refuted_offset_not_perpendicular.
Theorem C14_partner_position_partial :
  forall (mat : Material R) (options : Options R) (p1 : Particle R) bcg rng n i p2 n',
    is_unit (p_dir p1) -> off_axis (p_dir p1) ->
    choose_collision_partner mat options p1 bcg rng n = Ok ((i, p2), n') ->
    bcg_impact_parameter bcg * cos (bcg_phi_azimuthal bcg) * vx (p_dir p1) * vz (p_dir p1) = 0 ->
    let offset := vminus (p_pos p2) (vplus (p_pos p1) (vscale (bcg_mfp bcg) (p_dir p1))) in
    vdot offset (p_dir p1) = 0 /\ vdot offset offset = bcg_impact_parameter bcg * bcg_impact_parameter bcg.
Proof.
  intros mat options p1 bcg rng n i p2 n' Hu Ho H H0 offset.
  destruct (partner_inv _ _ _ _ _ _ _ _ _ H) as (Hp & _). unfold offset. rewrite Hp.
  split; [apply (recoil_offset_iff (p_pos p1) (p_dir p1) bcg Hu Ho); exact H0|].
  apply (recoil_offset_dot (p_pos p1) (p_dir p1) bcg Hu Ho). exact H0.
Qed.
Print Assumptions C14_partner_position_partial.
Example C14_partial_applies : exists p2, 
  choose_collision_partner (r_material 1 1) r_options r_deep r_bcg zero_rng 0%nat = Ok ((0%nat, p2), 1%nat).
Proof. destruct r_partner as (p2 & H & _). exists p2. exact H. Qed.
(** the condition of the refutation: direction (0.6, 0, 0.8), azimuth 0, impact parameter 1/2 *)
Definition r_slanted : Particle R := set_p_dir (mkV (6 / 10) 0 (8 / 10)) r_deep.
Example C14_refuted_applies : exists p2,
  choose_collision_partner (r_material 1 1) r_options r_slanted (mkBCG 0 (1 / 2) 1) zero_rng 0%nat = Ok ((0%nat, p2), 1%nat) /\
  is_unit (p_dir r_slanted) /\ off_axis (p_dir r_slanted) /\
  (1 / 2) * cos 0 * vx (p_dir r_slanted) * vz (p_dir r_slanted) <> 0.
Proof.
  unfold choose_collision_partner, choose, mbind, mrandom, mlift, mret. rewrite r_chooses by (unfold zero_rng; lra).
  eexists. split; [reflexivity|]. unfold is_unit, off_axis, vdot. cbn. rewrite cos_0. unfold Rabs. destruct (Rcase_abs _); repeat split; lra.
Qed.

(** ** C15 *)
Theorem C15_displacement_of_a_step :
  forall (build : Build R) (mat : Material R) (options : Options R) p particles rng n p' particles' n',
    active p ->
    bca_step build mat options p particles rng n = Ok ((p', particles'), n') ->
    exists p0 bcgs n1 bcg0,
      determine_mfp_phi_impact_parameter mat options p rng n = Ok ((p0, bcgs), n1) /\
      nth_error bcgs 0 = Some bcg0 /\
      p_pos p' = vplus (p_pos p)
        (vscale (bcg_mfp bcg0 + p_asymptotic_deflection p - p_asymptotic_deflection p') (p_dir_old p)) /\
      p_pos_old p' = p_pos p.
Proof. exact step_displacement. Qed.
Print Assumptions C15_displacement_of_a_step.
(** [p_dir_old] is the direction before the collision whenever the last
    boundary test did not change the direction *)
Theorem C15_flight_direction_is_the_direction_before_the_collision :
  forall (build : Build R) (mat : Material R) (options : Options R) p particles rng n p' particles' n',
    active p ->
    bca_step build mat options p particles rng n = Ok ((p', particles'), n') ->
    in_barrier mat (p_pos p') = in_barrier mat (p_pos p) \/ ~ active p' ->
    p_dir_old p' = p_dir p'.
Proof. exact step_dir_old_uncrossed. Qed.
Print Assumptions C15_flight_direction_is_the_direction_before_the_collision.
Theorem C15_path_lengths_telescope :
  forall (build : Build R) (mat : Material R) (options : Options R) p visited p',
    steps build mat options p visited p' ->
    exists hops, length hops = length visited /\
      p_pos p' = vplus (p_pos p) (displacement hops visited) /\
      Rsum hops = Rsum (map snd visited) + p_asymptotic_deflection p - p_asymptotic_deflection p'.
Proof. exact telescope. Qed.
Print Assumptions C15_path_lengths_telescope.
Example C15_applies : exists p1 n1 p2 n2,
  bca_step None r_mat r_options r_refl [] zero_rng 0%nat = Ok ((p1, []), n1) /\
  bca_step None r_mat r_options p1 [] zero_rng 0%nat = Ok ((p2, []), n2) /\
  p_pos p2 = mkV (-21 / 10) (16 / 10) 0.
Proof. destruct r_reflection as (p1 & n1 & p2 & n2 & H1 & _ & _ & _ & H2 & H3). exists p1, n1, p2, n2. auto. Qed.

(** A recoil starts at rest at its lattice place, and its first flight is along
    its own direction: in any arithmetic, the particles a step adds to the
    stack are fresh. *)
Definition fresh_recoil {F} (q : Particle F) : Prop :=
  p_dir_old q = p_dir q /\ p_pos_old q = p_pos q /\ p_pos_origin q = p_pos q /\ p_energy_origin q = p_E q /\
  p_incident q = false /\ active q /\ p_number_collision_events q = 0%nat.
Lemma partner_fresh {F} {NF : Num F} mat options (p1 : Particle F) bcg rng n i p2 n' :
  choose_collision_partner mat options p1 bcg rng n = Ok ((i, p2), n') ->
  p_pos_old p2 = p_pos p2 /\ p_pos_origin p2 = p_pos p2 /\ p_incident p2 = false /\ active p2 /\ p_number_collision_events p2 = 0%nat.
Proof.
  unfold choose_collision_partner. intros H. apply mbind_ok in H. destruct H as (s & k & _ & H). apply mret_ok in H. destruct H as (H & _).
  pose proof (f_equal snd H) as H2. cbn [snd] in H2. subst p2. repeat split.
Qed.
Theorem C15_recoils_start_along_their_direction :
  forall {F} {NF : Num F} build (mat : Material F) options p particles rng n p' particles' n',
    bca_step build mat options p particles rng n = Ok ((p', particles'), n') ->
    exists new, particles' = new ++ particles /\ Forall fresh_recoil new.
Proof.
  intros F NF build mat options p particles rng n p' particles' n' H. apply bca_step_inv in H.
  destruct H as (p0 & bcgs & n1 & cs & bcg0 & q & dist & q' & loss & _ & Hc & _ & _ & _ & _ & ->).
  revert Hc. eapply (collision_loop_invariant (fun cs => exists new, cs_particles cs = new ++ particles /\ Forall fresh_recoil new));
    [|exists []; split; [reflexivity|constructor]].
  clear. intros k bcg cs rng n cs' n' (new & En & Hn) H. apply collision_step_inv in H.
  destruct H as (i & p2 & barrier & Hp & _ & [(_ & ->)|(_ & r & bulk & keep & _ & _ & H)]); [eauto|]. cbv zeta in H. destruct H as (_ & ->).
  cbn [cs_particles]. destruct keep; [|eauto]. exists (recoil_after bcg r bulk p2 :: new). split; [cbn [app]; rewrite En; reflexivity|].
  constructor; [|exact Hn]. apply partner_fresh in Hp. destruct Hp as (H1 & H2 & H3 & H4 & H5).
  unfold fresh_recoil, recoil_after. repeat split; try (rewrite <- ?H1, <- ?H2; assumption); try assumption; try apply H4.
Qed.
Print Assumptions C15_recoils_start_along_their_direction.

(** ** C16 *)
Theorem C16_surface_refraction_is_exact :
  forall (n : Vector R) (Es : R) (p : Particle R),
    is_unit n -> is_unit (p_dir p) -> 0 <= p_E p -> 0 < p_E p + Es ->
    let c := vdot (p_dir p) n in
    0 <= p_E p * (c * c) + Es ->
    let p' := surface_refraction n Es p in
    is_unit (p_dir p') /\ p_E p' = p_E p + Es /\
    (forall t, vdot t n = 0 -> sqrt (p_E p') * vdot (p_dir p') t = sqrt (p_E p) * vdot (p_dir p) t) /\
    p_E p' * (vdot (p_dir p') n * vdot (p_dir p') n) = p_E p * (c * c) + Es /\ 0 <= vdot (p_dir p') n.
Proof.
  intros n Es p Hn Hd HE HEs c Hc p'.
  destruct (refraction_facts n (p_dir p) (p_E p) Es Hn Hd HE HEs Hc) as (Hu & Ht & Hnn & _).
  pose proof (surface_refraction_value n Es p) as Hv. cbv zeta in Hv.
  assert (Hp' : p' = surface_refraction n Es p) by reflexivity. rewrite Hv in Hp'.
  rewrite (f_equal p_dir Hp'), (f_equal p_E Hp'). cbn [p_dir p_E set_p_E set_p_dir].
  split; [exact Hu|]. split; [reflexivity|]. split; [exact Ht|].
  set (u := vplus _ _) in *. fold c in Hnn.
  pose proof (sqrt_sqrt (p_E p + Es) (Rlt_le _ _ HEs)) as Hs.
  pose proof (sqrt_lt_R0 _ HEs) as Hsp.
  pose proof (sqrt_sqrt _ Hc) as Hq. pose proof (sqrt_pos (p_E p * (c * c) + Es)) as Hqp.
  split.
  - generalize dependent (vdot u n). intros v Hnn.
    transitivity ((sqrt (p_E p + Es) * v) * (sqrt (p_E p + Es) * v)); [|rewrite Hnn; exact Hq].
    transitivity ((sqrt (p_E p + Es) * sqrt (p_E p + Es)) * (v * v)); [rewrite Hs; reflexivity|ring].
  - destruct (Rle_dec 0 (vdot u n)) as [?|Hneg]; [assumption|]. exfalso. 
    assert (sqrt (p_E p + Es) * vdot u n < 0) by nra. lra.
Qed.
Print Assumptions C16_surface_refraction_is_exact.
Example C16_applies : is_unit (mkV 1 0 0) /\ is_unit (p_dir r_refl) /\ 0 <= p_E r_refl /\ 0 < p_E r_refl + 2 /\
  0 <= p_E r_refl * (vdot (p_dir r_refl) (mkV 1 0 0) * vdot (p_dir r_refl) (mkV 1 0 0)) + 2.
Proof. unfold is_unit, vdot. cbn. repeat split; lra. Qed.

(** ** C17 *)
Theorem C17_in_and_out_restores_the_particle :
  forall (n : Vector R) (p : Particle R) (Es : R),
    is_unit n -> is_unit (p_dir p) -> 0 < p_E p -> 0 <= Es -> 0 <= vdot (p_dir p) n ->
    let p1 := surface_refraction n Es p in
    let p2 := surface_refraction n (- Es) p1 in
    p_E p2 = p_E p /\ p_dir p2 = p_dir p.
Proof. exact refraction_inverse. Qed.
Print Assumptions C17_in_and_out_restores_the_particle.
Example C17_applies : is_unit (mkV 0 1 0) /\ is_unit (p_dir r_refl) /\ 0 < p_E r_refl /\ 0 <= vdot (p_dir r_refl) (mkV 0 1 0).
Proof. unfold is_unit, vdot. cbn. repeat split; lra. Qed.

(** ** C18 *)
Theorem C18_barrier_decides_by_normal_energy :
  forall (mat : Material R) (p p' : Particle R) Es c,
    surface_binding_energy mat p = Ok p' ->
    in_barrier mat (p_pos_old p) = Ok true -> in_barrier mat (p_pos p) = Ok false ->
    actual_surface_binding_energy mat p (vx (p_pos_old p)) (vy (p_pos_old p)) (vz (p_pos_old p)) = Ok Es ->
    mat_closest_point mat (vx (p_pos p)) (vy (p_pos p)) (vz (p_pos p)) = Ok (vx c, vy c, vz c) ->
    p_pos p <> c -> is_unit (p_dir p) -> 0 <= p_E p ->
    let n := vtoward (p_pos p) c in
    let leaving_energy := if isotropic (mat_surface_binding_model mat) then p_E p
                          else p_E p * (vdot (p_dir p) n * vdot (p_dir p) n) in
    is_unit n /\
    (0 <= vdot (p_dir p) n -> p' = p) /\
    (vdot (p_dir p) n < 0 -> Es < leaving_energy ->
       p_E p' = p_E p - Es /\ p_backreflected p' = p_backreflected p /\ is_unit (p_dir p') /\
       (if isotropic (mat_surface_binding_model mat) then p_dir p' = p_dir p
        else (forall t, vdot t n = 0 -> sqrt (p_E p') * vdot (p_dir p') t = sqrt (p_E p) * vdot (p_dir p) t) /\
             sqrt (p_E p') * vdot (p_dir p') n = - sqrt (leaving_energy - Es))) /\
    (vdot (p_dir p) n < 0 -> leaving_energy <= Es ->
       p_E p' = p_E p /\ p_backreflected p' = true /\ is_unit (p_dir p') /\
       vdot (p_dir p') n = - vdot (p_dir p) n /\
       (forall t, vdot t n = 0 -> vdot (p_dir p') t = vdot (p_dir p) t)).
Proof. exact barrier_leaving. Qed.
Print Assumptions C18_barrier_decides_by_normal_energy.
(** re-entry of a reflected particle costs nothing; ordinary entry gains exactly Es *)
Theorem C18_entering_the_barrier :
  forall (mat : Material R) (p p' : Particle R) Es c,
    surface_binding_energy mat p = Ok p' ->
    in_barrier mat (p_pos_old p) = Ok false -> in_barrier mat (p_pos p) = Ok true ->
    actual_surface_binding_energy mat p (vx (p_pos_old p)) (vy (p_pos_old p)) (vz (p_pos_old p)) = Ok Es ->
    mat_closest_point mat (vx (p_pos p)) (vy (p_pos p)) (vz (p_pos p)) = Ok (vx c, vy c, vz c) ->
    p_pos p <> c -> is_unit (p_dir p) -> 0 < p_E p -> 0 <= Es ->
    let n := vtoward (p_pos p) c in
    (p_backreflected p = true -> p' = set_p_backreflected false p) /\
    (p_backreflected p = false ->
       p_E p' = p_E p + Es /\ p_backreflected p' = false /\ is_unit (p_dir p') /\
       (if isotropic (mat_surface_binding_model mat) then p_dir p' = p_dir p
        else (forall t, vdot t n = 0 -> sqrt (p_E p') * vdot (p_dir p') t = sqrt (p_E p) * vdot (p_dir p) t) /\
             sqrt (p_E p') * vdot (p_dir p') n = sqrt (p_E p * (vdot (p_dir p) n * vdot (p_dir p) n) + Es))).
Proof. exact barrier_entering. Qed.
Print Assumptions C18_entering_the_barrier.
Theorem C18_no_crossing_no_change :
  forall (mat : Material R) (p p' : Particle R) b,
    surface_binding_energy mat p = Ok p' ->
    in_barrier mat (p_pos_old p) = Ok b -> in_barrier mat (p_pos p) = Ok b -> p' = p.
Proof. exact barrier_uncrossed. Qed.
Print Assumptions C18_no_crossing_no_change.
(** a reflection happens in the run of C19_applies *)

(** ** C19 *)
Theorem C19_refuted_reflected_particle_moves_on_outwards :
  forall (build : Build R) (mat : Material R) (options : Options R) p particles rng n p1 particles1 n1 rng' m p2 particles2 n2 particles0,
    active p -> p_backreflected p = false ->
    bca_step build mat options p particles rng n = Ok ((p1, particles1), n1) ->
    p_backreflected p1 = true ->
    bca_step build mat options p1 particles0 rng' m = Ok ((p2, particles2), n2) ->
    exists c path,
      mat_closest_point mat (vx (p_pos p1)) (vy (p_pos p1)) (vz (p_pos p1)) = Ok (vx c, vy c, vz c) /\
      let n := vtoward (p_pos p1) c in
      vminus (p_pos p2) (p_pos p1) = vscale path (p_dir_old p1) /\
      vdot (p_dir_old p1) n < 0 /\ (is_unit n -> 0 < vdot (p_dir p1) n).
Proof. exact reflected_next_step. Qed.
Print Assumptions C19_refuted_reflected_particle_moves_on_outwards.
(** concretely: reflected at x = -1.5 with the new direction (0.6, 0.8, 0)
    pointing to the target (x > 0), the next step goes to x = -2.1 *)
Example C19_applies : exists p1 n1 p2 n2,
  bca_step None r_mat r_options r_refl [] zero_rng 0%nat = Ok ((p1, []), n1) /\
  p_backreflected p1 = true /\ p_dir p1 = mkV (6 / 10) (8 / 10) 0 /\ p_pos p1 = mkV (-15 / 10) (8 / 10) 0 /\
  bca_step None r_mat r_options p1 [] zero_rng 0%nat = Ok ((p2, []), n2) /\
  p_pos p2 = mkV (-21 / 10) (16 / 10) 0.
Proof. exact r_reflection. Qed.
(** What does hold: the stored direction is turned back towards the material. *)
Theorem C19_reflected_direction_points_to_the_material_partial :
  forall (mat : Material R) (p p' : Particle R) c,
    surface_binding_energy mat p = Ok p' -> p_backreflected p = false -> p_backreflected p' = true ->
    mat_closest_point mat (vx (p_pos p)) (vy (p_pos p)) (vz (p_pos p)) = Ok (vx c, vy c, vz c) ->
    p_pos p <> c ->
    0 < vdot (p_dir p') (vtoward (p_pos p) c).
Proof.
  intros mat p p' c H Hb Hb' Hc Hne.
  destruct (surface_inv _ _ _ H) as (Es & now & before & _ & _ & _ & Hm).
  destruct before, now; try (subst p'; congruence).
  - destruct Hm as (c' & Hc' & Hm). rewrite Hc in Hc'. injection Hc' as E1 E2 E3.
    assert (c' = c) by (destruct c, c'; cbn in *; congruence). subst c'. cbv zeta in Hm.
    pose proof (vtoward_unit _ _ Hne) as Hu.
    destruct Hm as [(_ & ->)|[(_ & _ & ->)|(Hneg & _ & ->)]].
    + congruence.
    + destruct (isotropic _); [cbn in Hb'; congruence|].
      pose proof (surface_refraction_value (vscale (-1) (vtoward (p_pos p) c)) (- Es) p) as E. cbv zeta in E.
      rewrite (f_equal p_backreflected E) in Hb'. cbn in Hb'. congruence.
    + cbn [p_dir set_p_backreflected set_p_dir]. set (n := vtoward (p_pos p) c) in *. unfold is_unit in Hu.
      assert (E : vdot (vplus (p_dir p) (vscale (-2 * vdot (p_dir p) n) n)) n
              = vdot (p_dir p) n - 2 * vdot (p_dir p) n * vdot n n).
      { unfold vdot, vplus, vscale. cbn [vx vy vz]. ring. }
      rewrite E, Hu. lra.
  - rewrite Hb in Hm. destruct Hm as (c' & _ & ->). 
    destruct (isotropic _); [cbn in Hb'; congruence|].
    pose proof (surface_refraction_value (vtoward (p_pos p) c') Es p) as E. cbv zeta in E.
    rewrite (f_equal p_backreflected E) in Hb'. cbn in Hb'. congruence.
Qed.
Print Assumptions C19_reflected_direction_points_to_the_material_partial.

(** ** C20 *)
(** entering a half-space so deep in one step that the new position is
    already inside the material: the particle is turned around *)
Theorem C20_refuted_deep_entry_turns_the_particle_around :
  forall (mat : Material R) (g : Mesh0D R) (p p' : Particle R) Es,
    mat_geometry mat = mesh0d_geometry g ->
    surface_binding_energy mat p = Ok p' ->
    in_barrier mat (p_pos_old p) = Ok false -> in_barrier mat (p_pos p) = Ok true ->
    actual_surface_binding_energy mat p (vx (p_pos_old p)) (vy (p_pos_old p)) (vz (p_pos_old p)) = Ok Es ->
    0 < vx (p_pos p) ->
    isotropic (mat_surface_binding_model mat) = false -> p_backreflected p = false ->
    is_unit (p_dir p) -> 0 < p_E p -> 0 < Es ->
    vx (p_dir p') < 0.
Proof.
  intros mat g p p' Es Hg H Ho Hn He Hx Hi Hb Hu HE HEs.
  apply deep_entry_turns_back with (mat := mat) (p := p) (Es := Es) (y := vy (p_pos p)) (z := vz (p_pos p)); try assumption.
  - destruct (p_pos p); reflexivity.
  - unfold mat_closest_point. rewrite Hg. cbn [mesh0d_geometry g_closest_point]. rewrite nZ_R. reflexivity.
Qed.
Print Assumptions C20_refuted_deep_entry_turns_the_particle_around.
Definition r_entering : Particle R := set_p_pos_old (mkV (-2) 0 0) (r_ion 1 (1 / 2) (6 / 10) (8 / 10)).
Example C20_applies : exists p',
  surface_binding_energy r_mat r_entering = Ok p' /\
  in_barrier r_mat (p_pos_old r_entering) = Ok false /\ in_barrier r_mat (p_pos r_entering) = Ok true /\
  actual_surface_binding_energy r_mat r_entering (-2) 0 0 = Ok 1 /\ 0 < vx (p_dir r_entering) /\ vx (p_dir p') < 0.
Proof.
  pose proof r_thickness as (Ht1 & Ht2).
  assert (Ho : in_barrier r_mat (p_pos_old r_entering) = Ok false).
  { change (Ok (nlt (- (2 / sqrt PI)) (-2)) = Ok false). f_equal. apply nlt_false. lra. }
  assert (Hn : in_barrier r_mat (p_pos r_entering) = Ok true).
  { change (Ok (nlt (- (2 / sqrt PI)) (1 / 2)) = Ok true). f_equal. apply nlt_true. lra. }
  assert (Hs : exists p', surface_binding_energy r_mat r_entering = Ok p').
  { unfold surface_binding_energy. unfold in_barrier in Ho, Hn. unfold mat_inside_energy_barrier.
    change (actual_surface_binding_energy r_mat r_entering (vx (p_pos_old r_entering)) (vy (p_pos_old r_entering)) (vz (p_pos_old r_entering))) with (Ok 1).
    cbn [bind]. rewrite Ho, Hn. cbn [bind andb negb].
    change (p_backreflected r_entering) with false. cbv iota.
    change (mat_closest_point r_mat (vx (p_pos r_entering)) (vy (p_pos r_entering)) (vz (p_pos r_entering))) with (Ok (nZ 0 : R, 0, 0)).
    cbn [bind]. eexists. reflexivity. }
  destruct Hs as (p' & Hs). exists p'. split; [exact Hs|]. split; [exact Ho|]. split; [exact Hn|]. split; [reflexivity|].
  split; [cbn; lra|].
  apply (C20_refuted_deep_entry_turns_the_particle_around r_mat (r_mesh 1) r_entering p' 1); try reflexivity; try assumption; try (cbn; lra).
  unfold is_unit, vdot. cbn. lra.
Qed.
(** What does hold: the refracted particle moves towards the closest surface
    point, hence into the material whenever it is still outside it. *)
Theorem C20_entering_moves_towards_the_surface_partial :
  forall (mat : Material R) (p p' : Particle R) Es c,
    surface_binding_energy mat p = Ok p' ->
    in_barrier mat (p_pos_old p) = Ok false -> in_barrier mat (p_pos p) = Ok true ->
    actual_surface_binding_energy mat p (vx (p_pos_old p)) (vy (p_pos_old p)) (vz (p_pos_old p)) = Ok Es ->
    mat_closest_point mat (vx (p_pos p)) (vy (p_pos p)) (vz (p_pos p)) = Ok (vx c, vy c, vz c) ->
    p_pos p <> c -> is_unit (p_dir p) -> 0 < p_E p -> 0 < Es ->
    isotropic (mat_surface_binding_model mat) = false -> p_backreflected p = false ->
    0 < vdot (p_dir p') (vtoward (p_pos p) c).
Proof.
  intros mat p p' Es c H Ho Hn He Hc Hne Hu HE HEs Hi Hb.
  destruct (barrier_entering mat p p' Es c H Ho Hn He Hc Hne Hu HE (Rlt_le _ _ HEs)) as (_ & Hr).
  destruct (Hr Hb) as (_ & _ & _ & Hd). rewrite Hi in Hd. destruct Hd as (_ & Hd).
  set (n := vtoward (p_pos p) c) in *. set (q := vdot (p_dir p) n) in *.
  assert (Hpos : 0 < sqrt (p_E p * (q * q) + Es)).
  { apply sqrt_lt_R0. pose proof (Rle_0_sqr q) as Hq. unfold Rsqr in Hq.
    apply Rplus_le_lt_0_compat; [apply Rmult_le_pos; lra|exact HEs]. }
  rewrite <- Hd in Hpos. pose proof (sqrt_pos (p_E p')). 
  destruct (Rlt_dec 0 (vdot (p_dir p') n)) as [?|Hn']; [assumption|]. exfalso. nra.
Qed.
Print Assumptions C20_entering_moves_towards_the_surface_partial.

(** ** C21 *)
Theorem C21_electronic_stopping_inside :
  forall (mat : Material R) (options : Options R) (p : Particle R) dist x0 scZ sci p' loss,
    subtract_electronic_stopping_energy mat options p dist x0 scZ sci = Ok (p', loss) ->
    in_material mat (p_pos p) = true ->
    electronic_loss mat options p dist x0 scZ sci = Ok loss /\
    p' = set_p_E (Rmax 0 (p_E p - loss)) p /\ p_E p - p_E p' <= loss.
Proof.
  intros mat options p dist x0 scZ sci p' loss H Hin.
  destruct (stopping_inside _ _ _ _ _ _ _ _ _ H Hin) as (H1 & ->). split; [exact H1|]. split; [reflexivity|].
  cbn. pose proof (Rmax_r 0 (p_E p - loss)). lra.
Qed.
Print Assumptions C21_electronic_stopping_inside.
Theorem C21_electronic_stopping_outside :
  forall (mat : Material R) (options : Options R) (p : Particle R) dist x0 scZ sci p' loss,
    subtract_electronic_stopping_energy mat options p dist x0 scZ sci = Ok (p', loss) ->
    in_material mat (p_pos p) = false -> p' = p /\ loss = 0.
Proof. exact stopping_outside. Qed.
Print Assumptions C21_electronic_stopping_outside.
Example C21_applies : exists p' loss,
  subtract_electronic_stopping_energy (r_material 1 1) r_options r_deep 1 0 1 0 = Ok (p', loss) /\
  in_material (r_material 1 1) (p_pos r_deep) = true.
Proof.
  assert (Hin : in_material (r_material 1 1) (p_pos r_deep) = true).
  { unfold in_material. cbn [r_material mat_geometry mesh0d_geometry g_inside]. apply nlt_true. rewrite nZ_R. cbn. lra. }
  unfold subtract_electronic_stopping_energy. pose proof Hin as Hin'. unfold in_material in Hin'. unfold mat_inside. rewrite Hin'.
  eexists _, _. split; [reflexivity|exact Hin].
Qed.

(** ** C22 *)
(** the recorded electronic loss exceeds the drop whenever it exceeds the energy *)
Theorem C22_refuted_losses_overreported_when_energy_runs_out :
  forall (mat : Material R) (options : Options R) (p : Particle R) dist x0 scZ sci p' loss,
    subtract_electronic_stopping_energy mat options p dist x0 scZ sci = Ok (p', loss) ->
    in_material mat (p_pos p) = true -> 0 <= p_E p < loss ->
    p_E p' = 0 /\ p_E p - p_E p' < loss.
Proof. exact overreport. Qed.
Print Assumptions C22_refuted_losses_overreported_when_energy_runs_out.
Theorem C22_recorded_losses_of_a_step_partial :
  forall (build : Build R) (mat : Material R) (options : Options R) p particles rng n p' particles' n',
    active p ->
    bca_step build mat options p particles rng n = Ok ((p', particles'), n') ->
    exists En Ee E1,
      (p_energies p' = if p_incident p && o_track_energy_losses options
                       then p_energies p ++ [mkEL En Ee (vx (p_pos p')) (vy (p_pos p')) (vz (p_pos p'))]
                       else p_energies p) /\
      (in_material mat (p_pos p') = true -> E1 = Rmax 0 (p_E p - En - Ee)) /\
      (in_material mat (p_pos p') = false -> Ee = 0 /\ E1 = p_E p - En) /\
      (in_barrier mat (p_pos p') = in_barrier mat (p_pos p) \/ ~ active p' -> p_E p' = E1).
Proof. exact step_energy. Qed.
Print Assumptions C22_recorded_losses_of_a_step_partial.
