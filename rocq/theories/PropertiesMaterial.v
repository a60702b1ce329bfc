(** * PropertiesMaterial.v - C23..C31 (and examples for C21, C22): sampling,
    species, averages, binding energies, stopping. *)
From Coq Require Import ZArith List Bool Lia Reals Lra Floats.SpecFloat.
From Verif Require Import Num ModelTypes ModelConsts ModelParticle ModelInteractions ModelGeometry
  ModelMaterial ModelBca Spec ProofsBase ProofsBca NumSF NumR SpecR ProofsStep ProofsSampling ProofsEnergy
  ToyR ProofsRefute ProofsMaterial.
Import ListNotations.
Open Scope R_scope.

(** ** C23 *)
Theorem C23_collision_geometries_stay_in_their_annuli :
  forall (mat : Material R) (options : Options R) (p : Particle R) rng n p' bcgs n' densities,
    unit_randoms rng ->
    g_get_densities (mat_geometry mat) (vx (p_pos p)) (vy (p_pos p)) (vz (p_pos p)) = Ok densities ->
    0 < Rsum densities ->
    determine_mfp_phi_impact_parameter mat options p rng n = Ok ((p', bcgs), n') ->
    let mfp := Rpower (Rsum densities) (-1 / 3) in
    let pmax := mfp / sqrt PI in
    Forall (fun b => 0 <= bcg_phi_azimuthal b < 2 * PI) bcgs /\
    (o_high_energy_free_flight_paths options = true -> length bcgs = 1%nat) /\
    (o_high_energy_free_flight_paths options = false ->
       length bcgs = S (o_weak_collision_order options) /\
       (forall k b, nth_error bcgs k = Some b ->
          pmax * sqrt (INR k) <= bcg_impact_parameter b < pmax * sqrt (INR (S k))) /\
       exists r r', 0 <= r < 1 /\ 0 <= r' < 1 /\
         Forall (fun b => bcg_mfp b =
           (if p_first_step p then mfp * r else mfp) *
           (match o_mean_free_path_model options with GASEOUS => - ln r' | _ => 1 end)) bcgs).
Proof. exact geometry_sampling. Qed.
Print Assumptions C23_collision_geometries_stay_in_their_annuli.
Example C23_applies : exists p' bcgs n',
  unit_randoms zero_rng /\
  g_get_densities (mat_geometry (r_material 1 1)) 5 0 0 = Ok [1] /\ 0 < Rsum [1] /\
  determine_mfp_phi_impact_parameter (r_material 1 1) r_options r_deep zero_rng 0%nat = Ok ((p', bcgs), n').
Proof.
  destruct (mat_mfp_R (r_material 1 1) 5 0 0 [1] eq_refl) as (Hm & _); [cbn; lra|].
  destruct (determine_value (r_material 1 1) r_options r_deep zero_rng 0%nat _ eq_refl Hm) as (n' & H & _).
  eexists _, _, n'. split; [intros k; unfold zero_rng; lra|]. split; [reflexivity|]. split; [cbn; lra|exact H].
Qed.

(** ** C24 *)
(** without high-energy free flight paths the threshold has no effect at all:
    after the first step the path is the mean free path at every density *)
Theorem C24_refuted_threshold_ignored_without_free_flight_paths :
  forall (mat : Material R) (options : Options R) (p : Particle R) rng n p' bcgs n' densities threshold,
    o_mean_free_path_model options = THRESHOLD threshold ->
    o_high_energy_free_flight_paths options = false -> p_first_step p = false ->
    g_get_densities (mat_geometry mat) (vx (p_pos p)) (vy (p_pos p)) (vz (p_pos p)) = Ok densities ->
    0 < Rsum densities ->
    determine_mfp_phi_impact_parameter mat options p rng n = Ok ((p', bcgs), n') ->
    Forall (fun b => bcg_mfp b = Rpower (Rsum densities) (-1 / 3)) bcgs.
Proof. exact threshold_ignored. Qed.
Print Assumptions C24_refuted_threshold_ignored_without_free_flight_paths.
Definition r_threshold : Options R := {|
  o_track_trajectories := false; o_track_recoils := true; o_track_recoil_trajectories := false;
  o_write_buffer_size := 8%nat; o_weak_collision_order := 0%nat; o_suppress_deep_recoils := false;
  o_high_energy_free_flight_paths := false; o_electronic_stopping_mode := LOW_ENERGY_NONLOCAL;
  o_mean_free_path_model := THRESHOLD 2;
  o_interaction_potential := [[COULOMB 1 1]]; o_scattering_integral := [[GAUSS_MEHLER 0]];
  o_root_finder := [[DEFAULTNEWTON]]; o_num_threads := 1%nat; o_num_chunks := 1%nat; o_use_hdf5 := false;
  o_track_displacements := true; o_track_energy_losses := true |}.
(** the density 1 is below the threshold 2, but every random stream gives the path 1 *)
Example C24_applies : forall rng n, exists p' b n',
  determine_mfp_phi_impact_parameter (r_material 1 1) r_threshold (set_p_first_step false r_deep) rng n
    = Ok ((p', [b]), n') /\ Rsum [1] < 2 /\ bcg_mfp b = 1.
Proof.
  intros rng n.
  assert (Hs : 0 < Rsum [1]) by (cbn; lra).
  destruct (mat_mfp_R (r_material 1 1) 5 0 0 [1] eq_refl Hs) as (Hm & _).
  destruct (determine_value (r_material 1 1) r_threshold (set_p_first_step false r_deep) rng n _ eq_refl Hm) as (n' & H & _).
  eexists _, _, n'. split; [exact H|]. split; [cbn; lra|].
  pose proof (threshold_ignored (r_material 1 1) r_threshold (set_p_first_step false r_deep) rng n _ _ _ [1] 2 eq_refl eq_refl eq_refl eq_refl Hs H) as Hf.
  apply Forall_inv in Hf. etransitivity; [exact Hf|]. replace (Rsum [1]) with 1 by (cbn; ring). unfold Rpower. rewrite ln_1, Rmult_0_r. apply exp_0.
Qed.
(** What does hold: with free flight paths, below the threshold the path is
    exponential or a longer free flight. *)
Theorem C24_threshold_with_free_flight_paths_partial :
  forall (mat : Material R) (options : Options R) (p : Particle R) rng n p' bcgs n' densities threshold,
    o_mean_free_path_model options = THRESHOLD threshold ->
    o_high_energy_free_flight_paths options = true -> p_first_step p = false ->
    g_get_densities (mat_geometry mat) (vx (p_pos p)) (vy (p_pos p)) (vz (p_pos p)) = Ok densities ->
    0 < Rsum densities ->
    determine_mfp_phi_impact_parameter mat options p rng n = Ok ((p', bcgs), n') ->
    exists b k, bcgs = [b] /\
    (Rpower (Rsum densities) (-1 / 3) <= bcg_mfp b \/
     bcg_mfp b = Rpower (Rsum densities) (-1 / 3) * (if Rlt_dec (Rsum densities) threshold then - ln (rng k) else 1)).
Proof. exact threshold_free_flight. Qed.
Print Assumptions C24_threshold_with_free_flight_paths_partial.

(** ** C25 *)
Theorem C25_species_are_drawn_with_their_concentrations :
  forall (mat : Material R) x y z concentrations rng n,
    g_get_concentrations (mat_geometry mat) x y z = Ok concentrations ->
    Forall (fun c => 0 <= c) concentrations -> Rsum concentrations = 1 ->
    arrays_cover mat (length concentrations) -> 0 <= rng n < 1 ->
    exists s, choose mat x y z rng n = Ok (s, S n) /\
      nth_error (mat_Z mat) (s_index s) = Some (s_Z s) /\ nth_error (mat_m mat) (s_index s) = Some (s_m s) /\
      nth_error (mat_Ec mat) (s_index s) = Some (s_Ec s) /\ nth_error (mat_Es mat) (s_index s) = Some (s_Es s) /\
      nth_error (mat_Ed mat) (s_index s) = Some (s_Ed s) /\
      nth_error (mat_interaction_index mat) (s_index s) = Some (s_interaction_index s) /\
      (forall i, i = s_index s <-> Rsum (firstn i concentrations) <= rng n < Rsum (firstn (S i) concentrations)).
Proof. exact choose_R. Qed.
Print Assumptions C25_species_are_drawn_with_their_concentrations.
(** the interval of species [i] has length [concentration i] *)
Theorem C25_interval_length :
  forall (concentrations : list R) i c, nth_error concentrations i = Some c ->
    Rsum (firstn (S i) concentrations) - Rsum (firstn i concentrations) = c.
Proof. intros cs i c H. rewrite (Rsum_firstn_S _ _ _ H). ring. Qed.
Print Assumptions C25_interval_length.
(** three species, the second absent: 0.3 draws the third, not the second *)
Definition r_three (Es : list R) : Material R := {|
  mat_m := [2; 3; 4]; mat_Z := [1; 2; 3]; mat_Eb := [1; 2; 5]; mat_Es := Es; mat_Ec := [0; 0; 0]; mat_Ed := [1; 1; 1];
  mat_interaction_index := [0; 0; 0]%nat;
  mat_geometry := mesh0d_geometry {| m0_densities := [1; 0; 3]; m0_concentrations := [1/4; 0; 3/4]; m0_ck := 1;
                                     m0_energy_barrier_thickness := 1 |};
  mat_surface_binding_model := SBM_AVERAGE; mat_bulk_binding_model := BBM_INDIVIDUAL |}.
Example C25_applies : forall x y z, exists s, choose (r_three [1; 1; 1]) x y z (fun _ => 3 / 10) 0%nat = Ok (s, 1%nat) /\
  s_index s = 2%nat /\ s_Z s = 3.
Proof.
  intros x y z.
  destruct (C25_species_are_drawn_with_their_concentrations (r_three [1; 1; 1]) x y z [1/4; 0; 3/4] (fun _ => 3 / 10) 0%nat)
    as (s & H & HZ & _ & _ & _ & _ & _ & Hi).
  - reflexivity.
  - repeat (constructor; [lra|]). constructor.
  - cbn. lra.
  - unfold arrays_cover. cbn. lia.
  - lra.
  - exists s. split; [exact H|].
    assert (E : 2%nat = s_index s) by (apply Hi; cbn; lra).
    split; [auto|]. rewrite <- E in HZ. cbn in HZ. injection HZ; auto.
Qed.

(** ** C26 *)
(** binary64: densities 9, 6, 3 give concentrations whose running sum ends at
    1 - 2^-53, and the random number 1 - 2^-53 (which the generator can
    return) finds no species *)
Theorem C26_refuted_choose_panics_in_double_precision :
  forall (lm : Libm), lm_powi lm (sf_lit 1 0) 3 = sf_lit 1 0 ->
  forall (ck : spec_float),
  exists g, @mesh0d_new _ (NumSF lm) {| m0i_length_unit := LU_M; m0i_densities := [sf_lit 9 0; sf_lit 6 0; sf_lit 3 0];
                                        m0i_ck := ck |} = Ok g /\
  forall (mat : Material spec_float) x y z,
    mat_geometry mat = @mesh0d_geometry _ (NumSF lm) g ->
    @choose _ (NumSF lm) mat x y z (fun _ => S754_finite false (2 ^ 53 - 1) (-53)) 0%nat = Panic ExplicitPanic.
Proof.
  intros lm Hlm ck. unfold mesh0d_new. cbn [m0i_length_unit length_unit_value bind m0i_densities m0i_ck].
  eexists. split; [reflexivity|]. intros mat x y z Hg.
  unfold choose, mbind, mrandom, choose_with, get_cumulative_concentrations. rewrite Hg.
  cbn [mesh0d_geometry g_get_concentrations m0_concentrations bind].
  unfold convert_densities. change (npowi (nZ 1) 3) with (lm_powi lm (sf_lit 1 0) 3). rewrite Hlm.
  match goal with |- context [choose_index ?r ?k ?l] => set (o := choose_index r k l) end.
  assert (Ho : o = None) by (vm_compute; reflexivity).
  rewrite Ho. reflexivity.
Qed.
Print Assumptions C26_refuted_choose_panics_in_double_precision.
Example C26_applies : lm_powi toy_libm (sf_lit 1 0) 3 = sf_lit 1 0.
Proof. vm_compute. reflexivity. Qed.

(** ** C27 *)
Theorem C27_averages_between_least_and_greatest :
  forall (mat : Material R) x y z concentrations lo hi,
    g_get_concentrations (mat_geometry mat) x y z = Ok concentrations ->
    Forall (fun c => 0 <= c) concentrations -> Rsum concentrations = 1 ->
    (Forall (fun v => lo <= v <= hi) (mat_Z mat) -> (length concentrations <= length (mat_Z mat))%nat ->
       exists a, average_Z mat x y z = Ok a /\ lo <= a <= hi) /\
    (Forall (fun v => lo <= v <= hi) (mat_m mat) -> (length concentrations <= length (mat_m mat))%nat ->
       exists a, average_mass mat x y z = Ok a /\ lo <= a <= hi) /\
    (Forall (fun v => lo <= v <= hi) (mat_Eb mat) -> (length concentrations <= length (mat_Eb mat))%nat ->
       exists a, average_bulk_binding_energy mat x y z = Ok a /\ lo <= a <= hi).
Proof.
  intros mat x y z cs lo hi Hg Hc Hs.
  assert (H : forall vs, Forall (fun v => lo <= v <= hi) vs -> (length cs <= length vs)%nat ->
            exists a, Ok (weighted_sum vs cs) = Ok a /\ lo <= a <= hi).
  { intros vs Hv Hl. eexists. split; [reflexivity|]. pose proof (weighted_sum_bounds vs cs lo hi Hv Hc Hl). rewrite Hs in H. lra. }
  unfold average_Z, average_mass, average_bulk_binding_energy. rewrite Hg. cbn [bind].
  split; [apply H|split; apply H].
Qed.
Print Assumptions C27_averages_between_least_and_greatest.
(** the three calculations, each reachable through two model names *)
Theorem C27_surface_binding_models :
  forall (mat : Material R) (p : Particle R) x y z concentrations Es,
    g_get_concentrations (mat_geometry mat) x y z = Ok concentrations ->
    actual_surface_binding_energy mat p x y z = Ok Es ->
    let local := Rsum (map (fun vc => fst vc * snd vc) (combine (mat_Es mat) concentrations)) in
    match mat_surface_binding_model mat with
    | SBM_INDIVIDUAL | ISOTROPIC SBC_INDIVIDUAL | PLANAR SBC_INDIVIDUAL => Es = p_Es p
    | SBM_TARGET | ISOTROPIC SBC_TARGET | PLANAR SBC_TARGET =>
        (p_Es p = 0 -> Es = 0) /\ (p_Es p <> 0 -> Es = local)
    | SBM_AVERAGE | ISOTROPIC SBC_AVERAGE | PLANAR SBC_AVERAGE =>
        (p_Es p = 0 \/ Rsum (mat_Es mat) = 0 -> Es = 0) /\
        (p_Es p <> 0 -> Rsum (mat_Es mat) <> 0 -> Es = (p_Es p + local) / 2)
    end.
Proof.
  intros mat p x y z cs Es Hg H local. unfold actual_surface_binding_energy in H. rewrite Hg in H. cbn [bind] in H.
  assert (Ht : forall E, E = sbe_target mat p cs -> (p_Es p = 0 -> E = 0) /\ (p_Es p <> 0 -> E = local)).
  { intros E ->. unfold sbe_target. rewrite weighted_sum_R. fold local. rewrite nZ_R.
    destruct (neqb (p_Es p) 0) eqn:E; bool_R; split; intros; try contradiction; reflexivity. }
  assert (Ha : forall E, E = sbe_average mat p cs -> (p_Es p = 0 \/ Rsum (mat_Es mat) = 0 -> E = 0) /\
        (p_Es p <> 0 -> Rsum (mat_Es mat) <> 0 -> E = (p_Es p + local) / 2)).
  { intros E ->. unfold sbe_average. rewrite weighted_sum_R. fold local. rewrite nZ_R, nsum_R. fold (Rsum (mat_Es mat)).
    destruct (neqb (p_Es p) 0) eqn:E; bool_R; cbn [orb].
    - split; [reflexivity|intros; contradiction].
    - destruct (neqb (Rsum (mat_Es mat)) 0) eqn:E'; bool_R; cbv iota.
      + split; [reflexivity|intros; contradiction].
      + split; [intros [?|?]; contradiction|]. intros _ _. rewrite nlit_neg. toR. cbn. field. }
  destruct (mat_surface_binding_model mat) as [[]|[]| | |]; (first [apply Ht|apply Ha|idtac]); congruence.
Qed.
Print Assumptions C27_surface_binding_models.
Theorem C27_surface_binding_energy_not_negative :
  forall (mat : Material R) (p : Particle R) x y z concentrations,
    g_get_concentrations (mat_geometry mat) x y z = Ok concentrations ->
    Forall (fun c => 0 <= c) concentrations -> Forall (fun e => 0 <= e) (mat_Es mat) -> 0 <= p_Es p ->
    exists Es, actual_surface_binding_energy mat p x y z = Ok Es /\ 0 <= Es.
Proof.
  intros mat p x y z cs Hg Hc He Hp. unfold actual_surface_binding_energy. rewrite Hg. cbn [bind].
  eexists. split; [reflexivity|].
  pose proof (weighted_sum_nonneg _ _ He Hc) as Hw.
  assert (Ht : 0 <= sbe_target mat p cs) by (unfold sbe_target; destruct (neqb _ _); [rewrite nZ_R; lra|exact Hw]).
  assert (Ha : 0 <= sbe_average mat p cs).
  { unfold sbe_average. destruct (_ || _); [rewrite nZ_R; lra|]. rewrite nlit_neg. toR. 
    apply Rmult_le_pos; [|lra]. cbn. lra. }
  destruct (mat_surface_binding_model mat) as [[]|[]| | |]; assumption.
Qed.
Print Assumptions C27_surface_binding_energy_not_negative.
Example C27_applies :
  Forall (fun c => 0 <= c) [1/4; 0; 3/4] /\ Rsum [1/4; 0; 3/4] = 1 /\
  average_mass (r_three [0; 1; 0]) 1 0 0 = Ok (7 / 2) /\
  average_bulk_binding_energy (r_three [0; 1; 0]) 1 0 0 = Ok 4.
Proof.
  split; [repeat (constructor; [lra|]); constructor|]. split; [cbn; lra|].
  unfold average_mass, average_bulk_binding_energy.
  cbn [r_three mat_geometry mesh0d_geometry g_get_concentrations bind mat_m mat_Eb m0_concentrations].
  rewrite !weighted_sum_R. cbn. split; f_equal; field.
Qed.

(** ** C28 *)
(** the test for zero looks at the plain sum of the surface binding energies,
    not at the local average: with a bound species that is absent at the point
    the result is half the particle's energy *)
Theorem C28_refuted_average_model_not_zero :
  forall (mat : Material R) (p : Particle R) x y z concentrations,
    mat_surface_binding_model mat = SBM_AVERAGE ->
    g_get_concentrations (mat_geometry mat) x y z = Ok concentrations ->
    Rsum (map (fun vc => fst vc * snd vc) (combine (mat_Es mat) concentrations)) = 0 ->
    Rsum (mat_Es mat) <> 0 -> p_Es p <> 0 ->
    actual_surface_binding_energy mat p x y z = Ok (p_Es p / 2) /\ p_Es p / 2 <> 0.
Proof.
  intros mat p x y z cs Hm Hg Hz Hs Hp.
  destruct (actual_surface_binding_energy mat p x y z) as [Es|k|] eqn:E;
    [|unfold actual_surface_binding_energy in E; rewrite Hg in E; discriminate E
     |unfold actual_surface_binding_energy in E; rewrite Hg in E; discriminate E].
  pose proof (C27_surface_binding_models mat p x y z cs Es Hg E) as H. cbv zeta in H. rewrite Hm in H.
  destruct H as (_ & H). rewrite (H Hp Hs), Hz. split; [f_equal; field|]. intros H0. apply Hp. lra.
Qed.
Print Assumptions C28_refuted_average_model_not_zero.
Example C28_applies : actual_surface_binding_energy (r_three [0; 1; 0]) (r_ion 2 (-3) 0 1) (-3) 0 0 = Ok (2 / 2).
Proof.
  apply (C28_refuted_average_model_not_zero (r_three [0; 1; 0]) (r_ion 2 (-3) 0 1) (-3) 0 0 [1/4; 0; 3/4]); try reflexivity; cbn; lra.
Qed.
(** What does hold: it is zero where every species is present and the local
    binding energy vanishes. *)
Theorem C28_average_model_zero_when_all_species_present_partial :
  forall (mat : Material R) (p : Particle R) x y z concentrations,
    mat_surface_binding_model mat = SBM_AVERAGE ->
    g_get_concentrations (mat_geometry mat) x y z = Ok concentrations ->
    Forall (fun c => 0 < c) concentrations -> Forall (fun e => 0 <= e) (mat_Es mat) ->
    (length (mat_Es mat) <= length concentrations)%nat ->
    Rsum (map (fun vc => fst vc * snd vc) (combine (mat_Es mat) concentrations)) = 0 ->
    actual_surface_binding_energy mat p x y z = Ok 0.
Proof.
  intros mat p x y z cs Hm Hg Hc He Hl Hz.
  assert (H0 : Rsum (mat_Es mat) = 0).
  { apply Rsum_zero. apply (weighted_sum_zero_all (mat_Es mat) cs); try assumption. rewrite weighted_sum_R. exact Hz. }
  destruct (actual_surface_binding_energy mat p x y z) as [Es|k|] eqn:E;
    [|unfold actual_surface_binding_energy in E; rewrite Hg in E; discriminate E
     |unfold actual_surface_binding_energy in E; rewrite Hg in E; discriminate E].
  pose proof (C27_surface_binding_models mat p x y z cs Es Hg E) as H. cbv zeta in H. rewrite Hm in H.
  destruct H as (H & _). rewrite H by (right; exact H0). reflexivity.
Qed.
Print Assumptions C28_average_model_zero_when_all_species_present_partial.

(** ** C29 *)
(** the option is never consulted: for every number type, every simulation
    gives the same result whatever the bulk binding model *)
Theorem C29_refuted_bulk_binding_model_is_ignored :
  forall (F : Type) (NF : Num F) (build : Build F) (mat mat' : Material F) (options : Options F) fuel ion rng n,
    mat_m mat' = mat_m mat -> mat_Z mat' = mat_Z mat -> mat_Eb mat' = mat_Eb mat -> mat_Es mat' = mat_Es mat ->
    mat_Ec mat' = mat_Ec mat -> mat_Ed mat' = mat_Ed mat ->
    mat_interaction_index mat' = mat_interaction_index mat -> mat_geometry mat' = mat_geometry mat ->
    mat_surface_binding_model mat' = mat_surface_binding_model mat ->
    (* whatever mat_bulk_binding_model mat and mat_bulk_binding_model mat' are *)
    single_ion_bca build mat' options fuel ion rng n = single_ion_bca build mat options fuel ion rng n.
Proof.
  intros F NF build mat mat' options fuel ion rng n H1 H2 H3 H4 H5 H6 H7 H8 H9.
  assert (E : mat' = with_bulk_model (mat_bulk_binding_model mat') mat).
  { destruct mat'. cbn in *. subst. reflexivity. }
  rewrite E. apply stack_ignores_bulk.
Qed.
Print Assumptions C29_refuted_bulk_binding_model_is_ignored.
(** What does hold: the recoil loses the average bulk binding energy at its
    position, which is its own where all species have the same. *)
Theorem C29_recoil_pays_the_average_bulk_binding_energy_partial :
  forall (build : Build R) (mat : Material R) (options : Options R) k bcg (cs cs' : CollisionState R) rng n n' recoil concentrations Eb,
    collision_step build mat options k bcg cs rng n = Ok (cs', n') ->
    cs_particles cs' = recoil :: cs_particles cs ->
    g_get_concentrations (mat_geometry mat) (vx (p_pos recoil)) (vy (p_pos recoil)) (vz (p_pos recoil)) = Ok concentrations ->
    Forall (fun c => 0 <= c) concentrations -> Rsum concentrations = 1 ->
    (length concentrations <= length (mat_Eb mat))%nat -> Forall (fun e => e = Eb) (mat_Eb mat) ->
    exists r, p_E recoil = r - Eb /\ p_energy_origin recoil = p_E recoil /\
      cs_total_energy_lost_to_recoils cs' = cs_total_energy_lost_to_recoils cs + r.
Proof.
  intros build mat options k bcg cs cs' rng n n' recoil conc Eb H Hr Hg Hc Hs Hl HE.
  apply collision_step_inv in H. destruct H as (i & p2 & barrier & _ & _ & [(_ & ->)|(_ & r & bulk & keep & _ & Hb & _ & ->)]).
  - exfalso. apply (f_equal (@length _)) in Hr. cbn in Hr. lia.
  - cbn [cs_particles] in Hr. destruct keep.
    2: exfalso; apply (f_equal (@length _)) in Hr; cbn in Hr; lia.
    assert (recoil_after bcg r bulk p2 = recoil) by congruence. clear Hr. subst recoil.
    cbn [p_E p_energy_origin p_pos recoil_after set_p_dir_old rotate set_p_dir set_p_energy_origin set_p_E] in *.
    exists (bcr_recoil_energy r). split; [|split; [reflexivity|reflexivity]].
    unfold average_bulk_binding_energy in Hb. rewrite Hg in Hb. cbn [bind] in Hb. injection Hb as <-.
    assert (Hf : Forall (fun v => Eb <= v <= Eb) (mat_Eb mat)) by (eapply Forall_impl; [|exact HE]; cbn; intros; lra).
    pose proof (weighted_sum_bounds (mat_Eb mat) conc Eb Eb Hf Hc Hl) as Hw. rewrite Hs in Hw. toR. lra.
Qed.
Print Assumptions C29_recoil_pays_the_average_bulk_binding_energy_partial.
(** and the function meant to be used does follow the model: the species' own
    energy, or the mean over the local composition unless the species is unbound *)
Theorem C29_bulk_binding_models_partial :
  forall (mat : Material R) i x y z concentrations Eb,
    nth_error (mat_Eb mat) i = Some Eb -> g_get_concentrations (mat_geometry mat) x y z = Ok concentrations ->
    let mean := Rsum (map (fun vc => fst vc * snd vc) (combine (mat_Eb mat) concentrations)) in
    actual_bulk_binding_energy mat i x y z =
      Ok (match mat_bulk_binding_model mat with BBM_INDIVIDUAL => Eb | BBM_AVERAGE => if Req_EM_T Eb 0 then 0 else mean end).
Proof.
  intros mat i x y z cs Eb Hi Hg mean. unfold actual_bulk_binding_energy, average_bulk_binding_energy, idx. rewrite Hi, Hg. cbn [bind].
  destruct (mat_bulk_binding_model mat); [reflexivity|]. rewrite nZ_R, weighted_sum_R. destruct (neqb Eb (IZR 0)) eqn:E; [apply neqb_true in E|apply neqb_false in E]; destruct (Req_EM_T Eb 0); try reflexivity; contradiction.
Qed.
Print Assumptions C29_bulk_binding_models_partial.
(** the documented per-species energy and the subtracted one differ here: 5 and 4 *)
Example C29_applies : actual_bulk_binding_energy (r_three [1; 1; 1]) 2 1 0 0 = Ok 5 /\
  average_bulk_binding_energy (r_three [1; 1; 1]) 1 0 0 = Ok 4.
Proof.
  split; [reflexivity|]. unfold average_bulk_binding_energy.
  cbn [r_three mat_geometry mesh0d_geometry g_get_concentrations bind mat_m mat_Eb m0_concentrations].
  rewrite !weighted_sum_R. cbn. f_equal; field.
Qed.

(** ** C30 *)
Theorem C30_minimum_cutoff_energy_is_the_minimum :
  forall (mat : Material R),
    mat_Ec mat <> [] -> Forall (fun e => 0 <= e) (mat_Ec mat) ->
    In (minimum_cutoff_energy mat) (mat_Ec mat) /\
    Forall (fun e => minimum_cutoff_energy mat <= e) (mat_Ec mat).
Proof. exact minimum_cutoff. Qed.
Print Assumptions C30_minimum_cutoff_energy_is_the_minimum.
Example C30_applies : mat_Ec (r_three []) <> [] /\ Forall (fun e => 0 <= e) (mat_Ec (r_three [])).
Proof. split; [discriminate|]. cbn. repeat (constructor; [lra|]). constructor. Qed.

(** ** C31 *)
(** Lindhard-Scharff and Bethe-Bloch values at unit correction *)
Theorem C31_low_energy_stopping_is_proportional_to_ck :
  forall (mat : Material R) (p : Particle R) mode ck densities,
    mode <> INTERPOLATED ->
    g_get_ck (mat_geometry mat) (vx (p_pos p)) (vy (p_pos p)) (vy (p_pos p)) = Ok ck ->
    g_get_densities (mat_geometry mat) (vx (p_pos p)) (vy (p_pos p)) (vy (p_pos p)) = Ok densities ->
    length densities = length (mat_Z mat) ->
    0 < p_E p -> 0 < p_m p -> 0 < p_Z p -> Forall (fun Z => 0 < Z) (mat_Z mat) ->
    exists S, electronic_stopping_cross_sections mat p mode = Ok (map (fun s => ck * s) S) /\
      length S = length (mat_Z mat) /\ Forall (fun s => 0 < s) S /\
      S = map (stopping_low (p_E p) (p_m p) (p_Z p)) (mat_Z mat).
Proof.
  intros mat p mode ck ds Hm Hck Hd Hl HE Hma HZ HZs.
  exists (map (stopping_low (p_E p) (p_m p) (p_Z p)) (mat_Z mat)).
  unfold electronic_stopping_cross_sections, electronic_stopping_correction_factor, number_densities.
  rewrite Hck, Hd. cbn [bind]. split; [|split; [apply map_length|split; [|reflexivity]]].
  - f_equal. rewrite map_map. clear Hd. revert ds Hl. unfold zip.
    induction (mat_Z mat) as [|Z Zs IH]; intros [|d ds] Hl; cbn in Hl; try discriminate; [reflexivity|].
    inversion_clear HZs. cbn [combine map snd]. rewrite stopping_power_low by exact Hm. f_equal. apply IH; [assumption|congruence].
  - apply Forall_forall. intros s Hs. apply in_map_iff in Hs. destruct Hs as (Z & <- & HZin).
    rewrite Forall_forall in HZs. apply stopping_low_pos; auto.
Qed.
Print Assumptions C31_low_energy_stopping_is_proportional_to_ck.
(** in the interpolated mode a larger correction factor lowers the stopping *)
Theorem C31_refuted_interpolated_stopping_decreases_with_ck :
  forall (ck ck' E Ma Za Zb : R),
    0 < E -> 0 < Ma -> 0 < Za -> 0 < Zb -> 0 <= ck < ck' ->
    0 < stopping_power INTERPOLATED ck' E Ma Za Zb < stopping_power INTERPOLATED ck E Ma Za Zb.
Proof. exact interpolated_decreasing. Qed.
Print Assumptions C31_refuted_interpolated_stopping_decreases_with_ck.
(** at unit correction factor the interpolation lies below both limits *)
Theorem C31_interpolation_below_both_limits_partial :
  forall (E Ma Za Zb : R),
    0 < E -> 0 < Ma -> 0 < Za -> 0 < Zb ->
    0 < stopping_power INTERPOLATED 1 E Ma Za Zb /\
    stopping_power INTERPOLATED 1 E Ma Za Zb < stopping_low E Ma Za Zb /\
    stopping_power INTERPOLATED 1 E Ma Za Zb < stopping_high E Ma Za Zb.
Proof.
  intros E Ma Za Zb HE HMa HZa HZb. rewrite stopping_power_interpolated.
  pose proof (stopping_low_pos E Ma Za Zb HE HMa HZa HZb) as Hl.
  pose proof (stopping_high_pos E Ma Za Zb HE HMa HZa HZb) as Hh.
  set (l := stopping_low E Ma Za Zb) in *. set (h := stopping_high E Ma Za Zb) in *. clearbody l h.
  assert (E' : 1 / (1 / h + 1 / l * 1) = h * l / (h + l)) by (field; repeat split; lra).
  rewrite E'. assert (Hs : 0 < h + l) by lra.
  split; [apply Rdiv_lt_0_compat; [apply Rmult_lt_0_compat; assumption|exact Hs]|].
  split; apply Rmult_lt_reg_r with (h + l); try exact Hs;
    (replace (h * l / (h + l) * (h + l)) with (h * l) by (field; lra)); nra.
Qed.
Print Assumptions C31_interpolation_below_both_limits_partial.
Example C31_applies :
  g_get_ck (mat_geometry (r_material 1 7)) 5 0 0 = Ok 7 /\ 0 < p_E r_deep /\ 0 < p_m r_deep /\ 0 < p_Z r_deep /\
  Forall (fun Z => 0 < Z) (mat_Z (r_material 1 7)).
Proof. cbn. repeat split; try lra. constructor; [lra|constructor]. Qed.

(** ** C21, C22: a concrete flight on which the energy runs out *)
Example C22_applies : exists dist p' loss,
  subtract_electronic_stopping_energy (r_material 1 1) r_options r_deep dist 0 1 0 = Ok (p', loss) /\
  in_material (r_material 1 1) (p_pos r_deep) = true /\ p_E r_deep = 1 /\ loss = 2 /\ p_E p' = 0.
Proof.
  set (s := stopping_low 1 1 1 1). assert (Hs : 0 < s) by (apply stopping_low_pos; lra).
  exists (2 / s).
  assert (Hin : in_material (r_material 1 1) (p_pos r_deep) = true).
  { unfold in_material. cbn [r_material mat_geometry mesh0d_geometry g_inside]. apply nlt_true. rewrite nZ_R. cbn. lra. }
  assert (Hl : electronic_loss (r_material 1 1) r_options r_deep (2 / s) 0 1 0 = Ok 2).
  { unfold electronic_loss.
    change (electronic_stopping_cross_sections (r_material 1 1) r_deep (o_electronic_stopping_mode r_options))
      with (Ok [stopping_low 1 1 1 1 *! 1] : Res (list R)).
    change (number_densities (r_material 1 1) (vx (p_pos r_deep)) (vy (p_pos r_deep)) (vz (p_pos r_deep)))
      with (Ok [1] : Res (list R)).
    fold s. cbn [bind]. change (idx (mat_interaction_index (r_material 1 1)) 0) with (Ok 0%nat). cbn [bind].
    change (idx2 (o_interaction_potential r_options) (p_interaction_index r_deep) 0) with (Ok (COULOMB 1 1 : InteractionPotential R)).
    cbn [bind o_electronic_stopping_mode r_options]. rewrite weighted_sum_R. toR. clearbody s. unfold Rsum. cbn [combine map fold_right fst snd]. f_equal. field. lra. }
  destruct (subtract_electronic_stopping_energy (r_material 1 1) r_options r_deep (2 / s) 0 1 0) as [[p' loss]|k|] eqn:E.
  - exists p', loss. destruct (stopping_inside _ _ _ _ _ _ _ _ _ E Hin) as (H1 & H2). rewrite Hl in H1. injection H1 as <-.
    split; [reflexivity|]. split; [exact Hin|]. split; [reflexivity|]. split; [reflexivity|].
    rewrite H2. cbn [p_E set_p_E r_deep r_ion]. unfold Rmax. destruct (Rle_dec 0 (1 - 2)); lra.
  - exfalso. unfold subtract_electronic_stopping_energy in E. pose proof Hin as Hin'. unfold in_material in Hin'. unfold mat_inside in E. rewrite Hin', Hl in E. discriminate E.
  - exfalso. unfold subtract_electronic_stopping_energy in E. pose proof Hin as Hin'. unfold in_material in Hin'. unfold mat_inside in E. rewrite Hin', Hl in E. discriminate E.
Qed.
