(** * ProofsLibR.v - the interfaces in exact arithmetic *)
From Coq Require Import ZArith List Bool Lia Reals Lra Permutation.
From Verif Require Import Num NumR ModelTypes ModelConsts ModelParticle ModelGeometry ModelMaterial ModelBca ModelInput ModelLib
  Spec SpecR SpecLib ProofsBase ProofsBca ProofsStep ProofsSampling ProofsEnergy ProofsFlight ProofsHalf ProofsGeometry ProofsLib ProofsFrame.
Import ListNotations.
Open Scope R_scope.

(** ** C65 *)
Lemma counted_false {F} {NF : Num F} (p : Particle F) : counted false p = ejected_recoil p.
Proof. unfold counted, ejected_recoil, ejected. destruct (p_E p >! nZ 0), (vx (p_dir p) <! nZ 0), (p_left p), (p_incident p); reflexivity. Qed.
Lemma counted_true {F} {NF : Num F} (p : Particle F) : counted true p = ejected_ion p.
Proof. unfold counted, ejected_ion, ejected. destruct (p_E p >! nZ 0), (vx (p_dir p) <! nZ 0), (p_left p), (p_incident p); reflexivity. Qed.
Lemma fold_energy l : forall a : R, fold_left (fun acc p => acc +! p_E p) l a = a + Rsum (map (@p_E R) l).
Proof. induction l as [|p l IH]; intros a; cbn [fold_left map Rsum fold_right]; [cbn; ring|]. rewrite IH. toR. unfold Rsum. cbn [fold_right]. ring. Qed.
Lemma Rsum_perm l l' : Permutation l l' -> Rsum l = Rsum l'.
Proof. unfold Rsum. induction 1; cbn [fold_right]; lra. Qed.
Lemma counted_le_incident {F} {NF : Num F} (l : list (Particle F)) : (length (filter (counted true) l) <= length (filter p_incident l))%nat.
Proof.
  induction l as [|p l IH]; [apply Nat.le_refl|]. cbn [filter]. unfold counted at 1.
  destruct (p_incident p); destruct (_ && _ && _ && _) eqn:E; cbn [length]; try lia.
Qed.
Lemma concat_one_each {A} (t : A -> bool) (ls : list (list A)) :
  Forall (fun l => length (filter t l) = 1%nat) ls -> length (filter t (concat ls)) = length ls.
Proof. induction 1 as [|l ls H _ IH]; [reflexivity|]. cbn [concat]. rewrite filter_app, app_length, H, IH. reflexivity. Qed.

(** ** C70 *)
Lemma cube_root_bounds : 46 / 100 < Rpower 10 (-1 / 3) < 47 / 100.
Proof.
  set (q := Rpower 10 (-1 / 3)). assert (Hq : 0 < q) by apply exp_pos.
  assert (H3 : q * q * q = 1 / 10).
  { unfold q. rewrite <- !Rpower_plus. replace (-1 / 3 + -1 / 3 + -1 / 3) with (- (1)) by field.
    rewrite Rpower_Ropp, Rpower_1 by lra. field. }
  split; apply Rnot_le_lt; intros H.
  - assert (q * q <= 46 / 100 * (46 / 100)) by nra. assert (q * q * q <= 46 / 100 * (46 / 100) * (46 / 100)) by nra. lra.
  - assert (47 / 100 * (47 / 100) <= q * q) by nra. assert (47 / 100 * (47 / 100) * (47 / 100) <= q * q * q) by nra. lra.
Qed.
Lemma angstrom_R : (cANGSTROM : R) = 1 / IZR (10 ^ 10).
Proof. reflexivity. Qed.
(** a density given per cubic angstrom *)
Lemma convert_sum ds : Rsum (convert_densities cANGSTROM ds) = Rsum ds * IZR (10 ^ 30).
Proof.
  induction ds as [|d ds IH]; unfold Rsum in *; cbn [convert_densities map fold_right]; [lra|].
  unfold convert_densities in IH. rewrite IH. rewrite npowi3_R, angstrom_R. toR. simpl IZR. lra.
Qed.
Lemma start_x_R N : 0 < N -> start_x N = - 2 * Rpower 10 (-1 / 3) * Rpower (N * IZR (10 ^ 30)) (-1 / 3).
Proof.
  intros H. unfold start_x. change (@nlit R NumR 10 30) with (10 * IZR (10 ^ 30)). rewrite !nZ_R.
  assert (H30 : 0 < IZR (10 ^ 30)) by (apply (IZR_lt 0); reflexivity).
  rewrite npowf_pos. 2:{ change (0 < N * (10 * IZR (10 ^ 30))). apply Rmult_lt_0_compat; [exact H|]. apply Rmult_lt_0_compat; [lra|exact H30]. }
  change (-2 * Rpower (N * (10 * IZR (10 ^ 30))) (IZR (-1) / 3) = - 2 * Rpower 10 (-1 / 3) * Rpower (N * IZR (10 ^ 30)) (-1 / 3)).
  replace (N * (10 * IZR (10 ^ 30))) with (10 * (N * IZR (10 ^ 30))) by ring.
  rewrite <- Rpower_mult_distr by (try lra; apply Rmult_lt_0_compat; assumption). 
  replace (IZR (-1)) with (-1) by reflexivity. lra.
Qed.
Lemma thickness_R ds : 0 < Rsum ds -> barrier_thickness_of ds = 2 / sqrt PI * Rpower (Rsum ds) (-1 / 3).
Proof.
  intros H. unfold barrier_thickness_of. rewrite nsum_R. fold (Rsum ds). rewrite npowf_pos by exact H. rewrite cSQRTPI_R, !nZ_R. toR.
  field. pose proof sqrt_pi_pos. lra.
Qed.
Lemma two_over_sqrtpi : 1 <= 2 / sqrt PI < 4 / 3.
Proof.
  pose proof sqrt_pi_pos as Hp. pose proof PI_4 as H4. pose proof PI2_3_2 as H3.
  assert (Hsq : sqrt PI * sqrt PI = PI) by (apply sqrt_sqrt; lra).
  set (s := sqrt PI) in *. assert (H : 3 / 2 < s <= 2) by (split; nra).
  assert (E : 2 / s * s = 2) by (field; lra). set (q := 2 / s) in *. split; nra.
Qed.

Lemma target_0d_inv sbm (Z2 m2 n2 Ec2 Es2 Eb2 Ed2 : list R) ii mat :
  target_0d sbm LU_ANGSTROM Z2 m2 n2 Ec2 Es2 Eb2 Ed2 ii = Ok mat ->
  exists g, mat_geometry mat = mesh0d_geometry g /\ m0_densities g = convert_densities cANGSTROM n2 /\
    m0_energy_barrier_thickness g = barrier_thickness_of (convert_densities cANGSTROM n2).
Proof.
  unfold target_0d, material_new. cbn [mp_energy_unit mp_mass_unit energy_unit_value mass_unit_value bind].
  unfold mesh0d_new. cbn [m0i_length_unit length_unit_value bind m0i_densities]. intros H.
  injection H as <-. cbn [mat_geometry]. eexists. split; [reflexivity|]. split; reflexivity.
Qed.
Lemma start_inside sbm (Z2 m2 n2 Ec2 Es2 Eb2 Ed2 : list R) ii mat y z :
  target_0d sbm LU_ANGSTROM Z2 m2 n2 Ec2 Es2 Eb2 Ed2 ii = Ok mat -> 0 < Rsum n2 ->
  in_barrier mat (mkV (start_x (nsum n2)) y z) = Ok true /\ start_x (nsum n2) < 0.
Proof.
  intros H Hn. destruct (target_0d_inv _ _ _ _ _ _ _ _ _ _ H) as (g & Hg & _ & Ht).
  unfold in_barrier. rewrite Hg. cbn [mesh0d_geometry g_inside_energy_barrier vx]. rewrite Ht.
  assert (H30 : 0 < IZR (10 ^ 30)) by (apply (IZR_lt 0); reflexivity).
  rewrite nsum_R. fold (Rsum n2). rewrite start_x_R by exact Hn.
  rewrite thickness_R by (rewrite convert_sum; apply Rmult_lt_0_compat; assumption). rewrite convert_sum.
  pose proof cube_root_bounds as Hq. pose proof two_over_sqrtpi as Hp.
  assert (Hm : 0 < Rpower (Rsum n2 * IZR (10 ^ 30)) (-1 / 3)) by apply exp_pos.
  split; [f_equal; apply nlt_true; toR; nra|nra].
Qed.

(** ** C71 *)
Definition one_species (Z2 m2 Ec2 Es2 Eb2 n2 : R) : Material R :=
  {| mat_m := [m2 * cAMU]; mat_Z := [Z2]; mat_Eb := [Eb2 * cEV]; mat_Es := [Es2 * cEV]; mat_Ec := [Ec2 * cEV]; mat_Ed := [nZ 0 * cEV];
     mat_interaction_index := [0%nat];
     mat_geometry := mesh0d_geometry {| m0_densities := convert_densities cANGSTROM [n2];
        m0_concentrations := concentrations_of (convert_densities cANGSTROM [n2]); m0_ck := nZ 1;
        m0_energy_barrier_thickness := barrier_thickness_of (convert_densities cANGSTROM [n2]) |};
     mat_surface_binding_model := SBM_AVERAGE; mat_bulk_binding_model := BBM_INDIVIDUAL |}.
Lemma one_species_target Z2 m2 Ec2 Es2 Eb2 n2 :
  target_0d SBM_AVERAGE LU_ANGSTROM [Z2] [m2] [n2] [Ec2] [Es2] [Eb2] (repeat (nZ 0) 1) (repeat 0%nat 1) = Ok (one_species Z2 m2 Ec2 Es2 Eb2 n2).
Proof. reflexivity. Qed.
Lemma one_species_chooses Z2 m2 Ec2 Es2 Eb2 n2 : 0 < n2 -> forall r x y z, 0 <= r < 1 ->
  exists s, choose_with (one_species Z2 m2 Ec2 Es2 Eb2 n2) r x y z = Ok s.
Proof.
  intros Hn r x y z Hr. unfold choose_with, get_cumulative_concentrations.
  cbn [one_species mat_geometry mesh0d_geometry g_get_concentrations m0_concentrations bind convert_densities map concentrations_of].
  cbn [cumulative_from choose_index].
  match goal with |- context [r <! ?c] => replace (r <! c) with true end.
  2:{ symmetry. apply nlt_true. rewrite nsum_R, npowi3_R, angstrom_R, nZ_R. toR. cbn [fold_right]. simpl IZR.
      match goal with |- r < 0 + ?a / (?a + 0) => replace (a / (a + 0)) with 1 end; [lra|]. field. lra. }
  eexists. reflexivity.
Qed.
Lemma stays_outside rec build fuel Z2 m2 Ec2 Es2 Eb2 n2 (ion : Particle R) rng n :
  let mat := one_species Z2 m2 Ec2 Es2 Eb2 n2 in
  0 < n2 -> unit_randoms rng -> active ion -> p_asymptotic_deflection ion = 0 -> p_first_step ion = true ->
  p_track_trajectories ion = false -> p_dir_old ion = p_dir ion -> 0 <= vx (p_dir ion) <= 2 / 10 ->
  vx (p_pos ion) = start_x (nsum [n2]) -> p_E ion < p_Ec ion ->
  exists o n', single_ion_bca build mat (default_options rec) (S (S fuel)) ion rng n = Ok ([o], n') /\
    p_left o = false /\ p_stopped o = true /\ vx (p_pos o) < 0 /\ p_E o = p_E ion /\ p_dir o = p_dir ion.
Proof.
  intros mat Hn Hr Ha Has Hf Htr Hdo Hdx Hpx HE.
  set (g := {| m0_densities := convert_densities cANGSTROM [n2];
        m0_concentrations := concentrations_of (convert_densities cANGSTROM [n2]); m0_ck := nZ 1;
        m0_energy_barrier_thickness := barrier_thickness_of (convert_densities cANGSTROM [n2]) |}).
  assert (H30 : 0 < IZR (10 ^ 30)) by (apply (IZR_lt 0); reflexivity).
  assert (Hs1 : Rsum [n2] = n2) by (unfold Rsum; cbn; ring).
  assert (Hden : 0 < Rsum (m0_densities g)).
  { cbn [g m0_densities]. rewrite convert_sum, Hs1. apply Rmult_lt_0_compat; assumption. }
  set (mfp := Rpower (Rsum (m0_densities g)) (-1 / 3)). assert (Hmfp : 0 < mfp) by apply exp_pos.
  assert (Hx0 : vx (p_pos ion) = -2 * Rpower 10 (-1 / 3) * mfp).
  { rewrite Hpx, nsum_R. fold (Rsum [n2]). rewrite start_x_R by (rewrite Hs1; exact Hn). unfold mfp. cbn [g m0_densities].
    rewrite convert_sum. lra. }
  assert (Ht : m0_energy_barrier_thickness g = 2 / sqrt PI * mfp).
  { cbn [g m0_energy_barrier_thickness]. apply thickness_R. exact Hden. }
  pose proof cube_root_bounds as Hq. pose proof two_over_sqrtpi as Hp. set (q := Rpower 10 (-1 / 3)) in *.
  set (L := sampled_path (default_options rec) (p_first_step ion) mfp rng (n + 1 + 1)%nat).
  assert (HL : 0 <= L < mfp).
  { unfold L, sampled_path. rewrite Hf. cbn [default_options o_mean_free_path_model].
    match goal with |- context [rng ?k] => pose proof (Hr k) as Hk; set (r := rng k) in * end. toR. nra. }
  destruct (free_step build mat (default_options rec) g eq_refl Hden (one_species_chooses _ _ _ _ _ _ Hn) eq_refl ion [] rng n Hr Ha Has)
    as (qq & Hqp & Hqpo & Hqd & Hqdo & Hqa & Hqf & (Hqs & Hql) & HqE & Hqb & Hid & Hb).
  - intros k Hk. assert (k = 0%nat) by (cbn in Hk; lia). subst k. fold mfp.
    change (S (o_weak_collision_order (default_options rec))) with 1%nat. fold L.
    unfold recoil_position. cbn [vx bcg_impact_parameter bcg_mfp bcg_phi_azimuthal]. toR.
    set (c := cos _). set (s := sqrt (1 - _)). set (b := sqrt (rng _ + _)).
    assert (Hc : -1 <= c <= 1) by apply COS_bound.
    assert (Hs : 0 <= s <= 1). { split; [apply sqrt_pos|]. rewrite <- sqrt_1. apply sqrt_le_1_alt. nra. }
    assert (Hb : 0 <= b <= 1).
    { split; [apply sqrt_pos|]. rewrite <- sqrt_1. apply sqrt_le_1_alt. pose proof (Hr (n + 1 + 0)%nat). simpl INR. lra. }
    assert (Hpm : 0 < mfp / sqrt PI <= 2 / 3 * mfp).
    { pose proof sqrt_pi_pos. split; [apply Rdiv_lt_0_compat; lra|].
      replace (mfp / sqrt PI) with (2 / sqrt PI * mfp / 2) by (field; lra). nra. }
    set (pm := mfp / sqrt PI) in *.
    assert (Hpb : 0 <= pm * b <= 2 / 3 * mfp) by (split; nra).
    set (ip := pm * b) in *. assert (Hcs : -1 <= c * s) by nra.
    assert (H1 : - (2 / 3 * mfp) <= ip * (c * s)) by nra.
    assert (H2 : L * vx (p_dir ion) <= 2 / 10 * mfp) by nra.
    rewrite Hx0. rewrite Rmult_assoc with (r1 := ip). nra.
  - fold mfp. change (S (o_weak_collision_order (default_options rec))) with 1%nat. fold L. rewrite Hdo, Hx0. nra.
  - fold mfp in Hqp. change (S (o_weak_collision_order (default_options rec))) with 1%nat in Hqp. fold L in Hqp.
    assert (Hqx : vx (p_pos qq) = vx (p_pos ion) + L * vx (p_dir ion)) by (rewrite Hqp, Hdo; reflexivity).
    assert (Hb1 : - (94 / 100) * mfp <= vx (p_pos qq) < 0) by (rewrite Hqx, Hx0; nra).
    assert (Hbd : boundary_condition_planar mat qq = Ok (set_p_stopped true qq)).
    { unfold boundary_condition_planar, mat_inside_simulation_boundary, mat_inside_energy_barrier.
      change (mat_geometry mat) with (mesh0d_geometry g). cbn [mesh0d_geometry g_inside_simulation_boundary g_inside_energy_barrier].
      replace (nlt (nZ (-10) *! m0_energy_barrier_thickness g) (vx (p_pos qq))) with true
        by (symmetry; apply nlt_true; rewrite Ht, nZ_R; toR; nra).
      replace (nlt (-! m0_energy_barrier_thickness g) (vx (p_pos qq))) with true
        by (symmetry; apply nlt_true; rewrite Ht; toR; nra).
      cbn [negb bind]. destruct Hid as (_ & _ & Hec & _ & _ & _ & _ & _ & Htt & _).
      replace (nlt (p_E qq) (p_Ec qq)) with true by (symmetry; apply nlt_true; rewrite HqE, <- Hec; exact HE).
      rewrite Hql. cbn [andb negb]. unfold update_trajectory_tracker. cbn [p_track_trajectories set_p_stopped].
      rewrite <- Htt, Htr. cbn [p_stopped negb andb]. reflexivity. }
    destruct (Hb _ Hbd) as (n' & Hstep).
    exists (set_p_stopped true qq), n'. repeat split; try assumption; try (cbn; lra).
    unfold single_ion_bca. cbn [stack_loop]. unfold mbind at 1. 
    cbn [bca_loop]. destruct Ha as (Ha1 & Ha2). rewrite Ha1, Ha2. cbn [negb andb]. unfold mbind at 1. rewrite Hstep.
    cbn [p_stopped set_p_stopped negb andb]. unfold mret. cbn [length]. reflexivity.
Qed.
