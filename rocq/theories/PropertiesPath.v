(** * PropertiesPath.v - C92..: recoil suppression, free flight paths, following recoils *)
From Coq Require Import ZArith List Bool Lia Reals Lra Floats.SpecFloat.
From Verif Require Import Num NumSF NumR ModelTypes ModelConsts ModelParticle ModelInteractions ModelGeometry ModelMaterial ModelBca.
From Verif Require Import Spec SpecR SpecShift SpecEnergy SpecPath ProofsBase ProofsBca ProofsStep ProofsMaterial ProofsEnergy ProofsInteractions
  ProofsKinematics ProofsLoss ProofsSampling ProofsRefute PropertiesTwo ToyLibm ToyR ToyRun ToyLoss ToyFlight PropertiesPush PropertiesEnergy.
Import ListNotations.
Open Scope R_scope.

Lemma lindhard_R Za Zb : 0 < Za -> 0 < Zb -> screening_length Za Zb MOLIERE = lindhard_length Za Zb.
Proof. intros Ha Hb. apply lindhard_length_R. pose proof (sqrt_lt_R0 _ Ha). pose proof (sqrt_lt_R0 _ Hb). lra. Qed.
Lemma lindhard_length_pos Za Zb : 0 < Za -> 0 < Zb -> 0 < lindhard_length Za Zb.
Proof. intros Ha Hb. rewrite <- lindhard_R by assumption. apply screening_length_pos; [exact I|assumption|assumption]. Qed.
Lemma lindhard_energy_R Za Ma Zb Mb E : 0 < Za -> 0 < Zb -> 0 < Ma -> 0 < Mb ->
  cLINDHARD_REDUCED_ENERGY_PREFACTOR *! screening_length Za Zb MOLIERE *! Mb /! (Ma +! Mb) /! Za /! Zb *! E = lindhard_energy Za Ma Zb Mb E.
Proof.
  intros Ha Hb Hm Hn. rewrite lindhard_R by assumption. unfold cLINDHARD_REDUCED_ENERGY_PREFACTOR, lindhard_energy.
  rewrite cQ_spec, cEPS0_spec. toR. pose proof charge_pos. field. repeat split; lra.
Qed.
Lemma lindhard_energy_pos Za Ma Zb Mb E : 0 < Za -> 0 < Zb -> 0 < Ma -> 0 < Mb -> 0 < E -> 0 < lindhard_energy Za Ma Zb Mb E.
Proof.
  intros Ha Hb Hm Hn HE. unfold lindhard_energy. pose proof charge_pos as Hq. pose proof eps_pos as Hv. pose proof PI_RGT_0 as Hpi.
  pose proof (lindhard_length_pos _ _ Ha Hb) as Hl. pose proof (pow_lt _ 2 Hq) as Hq2.
  set (q2 := elementary_charge ^ 2) in *. set (v := vacuum_permittivity) in *. set (l := lindhard_length Za Zb) in *. clearbody q2 v l.
  apply Rdiv_lt_0_compat; repeat (first [lra | apply Rmult_lt_0_compat]).
Qed.

(** ** C92: suppression of deep recoils *)
Theorem C92_deep_recoils :
  forall (build : Build R) (mat : Material R) (options : Options R) k bcg cs rng n cs' n' i p2 c bulk,
    let before := cs_particle_1 cs in
    o_track_recoils options = true -> o_suppress_deep_recoils options = true ->
    0 < p_Z before -> 0 < p_m before -> Forall (fun Z => 0 < Z) (mat_Z mat) -> Forall (fun m => 0 < m) (mat_m mat) ->
    choose_collision_partner mat options before bcg rng n = Ok ((i, p2), n') ->
    in_material mat (p_pos p2) = true -> in_barrier mat (p_pos before) = Ok true ->
    calculate_binary_collision build before p2 bcg options = Ok (Some c) ->
    average_bulk_binding_energy mat (vx (p_pos p2)) (vy (p_pos p2)) (vz (p_pos p2)) = Ok bulk ->
    0 < p_E before - bcr_recoil_energy c ->
    collision_step build mat options k bcg cs rng n = Ok (cs', n') ->
    exists dens x2 y2 z2,
      g_get_densities (mat_geometry mat) (vx (p_pos p2)) (vy (p_pos p2)) (vz (p_pos p2)) = Ok dens /\
      g_closest_point (mat_geometry mat) (vx (p_pos p2)) (vy (p_pos p2)) (vz (p_pos p2)) = Ok (x2, y2, z2) /\
      let energy := bcr_recoil_energy c - bulk in
      let eps := lindhard_energy (p_Z before) (p_m before) (p_Z p2) (p_m p2) (p_E before - bcr_recoil_energy c) in
      let range := recoil_range eps (Rsum dens) (lindhard_length (p_Z before) (p_Z p2)) in
      (dist3 (p_pos p2) (mkV x2 y2 z2) < range /\ p_Ec p2 < energy ->
        exists r, cs_particles cs' = r :: cs_particles cs /\ p_pos r = p_pos p2 /\ p_E r = energy /\ p_Z r = p_Z p2) /\
      (~ (dist3 (p_pos p2) (mkV x2 y2 z2) < range /\ p_Ec p2 < energy) -> cs_particles cs' = cs_particles cs).
Proof.
  intros build mat options k bcg cs rng n cs' n' i p2 c bulk before Ht Hs HZ Hm HZs Hms Hc Hin Hb Hcb Hbulk HE H.
  apply collision_step_inv in H. destruct H as (i' & p2' & b & Hc' & Hb' & [(Hno & _)|(_ & r' & bulk' & keep & Hr' & Hbulk' & Hk & E)]);
    unfold before in Hc; rewrite Hc in Hc'; apply ok_inj in Hc'; injection Hc' as <- <-.
  { rewrite Hin in Hno. unfold before in Hb. rewrite Hb in Hb'. injection Hb' as <-. discriminate Hno. }
  unfold before in Hcb. rewrite Hcb in Hr'. apply ok_inj in Hr'. injection Hr' as <-.
  rewrite Hbulk in Hbulk'. apply ok_inj in Hbulk'. subst bulk'.
  unfold keep_recoil in Hk. rewrite Ht, Hs in Hk. cbn [andb] in Hk. cbv zeta in Hk.
  change (p_pos (recoil_after bcg c bulk p2)) with (p_pos p2) in Hk.
  change (p_Z (recoil_after bcg c bulk p2)) with (p_Z p2) in Hk.
  change (p_m (recoil_after bcg c bulk p2)) with (p_m p2) in Hk.
  change (p_Ec (recoil_after bcg c bulk p2)) with (p_Ec p2) in Hk.
  change (p_E (recoil_after bcg c bulk p2)) with (bcr_recoil_energy c - bulk) in Hk.
  assert (Hq : p_Z (projectile_after k bcg c (cs_particle_1 cs)) = p_Z before /\ p_m (projectile_after k bcg c (cs_particle_1 cs)) = p_m before /\
     p_E (projectile_after k bcg c (cs_particle_1 cs)) = p_E before - bcr_recoil_energy c).
  { unfold projectile_after, rotate. destruct (_ && _); cbn; toR; repeat split; unfold before; lra. }
  destruct Hq as (Q1 & Q2 & Q3). rewrite Q1, Q2, Q3 in Hk.
  apply bind_ok in Hk. destruct Hk as (nn & Hn & Hk). apply bind_ok in Hk. destruct Hk as ([[x2 y2] z2] & Hcp & Hk).
  unfold total_number_density in Hn. apply bind_ok in Hn. destruct Hn as (dens & Hd & Hn). apply ok_inj in Hn. rewrite nsum_R in Hn.
  exists dens, x2, y2, z2. split; [exact Hd|]. split; [exact Hcp|]. cbv zeta.
  pose proof (partner_inv _ _ _ _ _ _ _ _ _ Hc) as (_ & _ & _ & _ & _ & _ & (HZ2 & Hm2 & _) & _).
  assert (H2 : 0 < p_Z p2 /\ 0 < p_m p2).
  { split.
    - rewrite Forall_forall in HZs. apply HZs. eapply nth_error_In. exact HZ2.
    - rewrite Forall_forall in Hms. apply Hms. eapply nth_error_In. exact Hm2. }
  destruct H2 as (H2Z & H2m).
  rewrite lindhard_energy_R in Hk by assumption. rewrite lindhard_R in Hk by assumption.
  set (eps := lindhard_energy _ _ _ _ _) in *.
  assert (Heps : 0 < eps).
  { apply lindhard_energy_pos; assumption. }
  rewrite npowf_pos in Hk by assumption. rewrite !nlit_neg in Hk. change (IZR (10 ^ 1)) with 10 in Hk. toR_in Hk. rewrite <- Hn in Hk.
  change (fold_right Rplus 0 dens) with (Rsum dens) in Hk.
  assert (Hd3 : sqrt ((x2 - vx (p_pos p2)) * (x2 - vx (p_pos p2)) + (y2 - vy (p_pos p2)) * (y2 - vy (p_pos p2)) + (z2 - vz (p_pos p2)) * (z2 - vz (p_pos p2))) =
    dist3 (p_pos p2) (mkV x2 y2 z2)) by (unfold dist3; cbn [vx vy vz]; f_equal; ring).
  rewrite Hd3 in Hk.
  set (range := recoil_range _ _ _).
  match type of Hk with context [nlt (dist3 _ _) ?e] => assert (Hrange : e = range) end.
  { unfold range, recoil_range. unfold before, pow. set (r1 := Rpower _ _). unfold Rdiv. rewrite !Rinv_mult, Rinv_1. ring. }
  rewrite Hrange in Hk. apply ok_inj in Hk. rewrite E. cbn [cs_particles]. split.
  - intros (G1 & G2). replace keep with true.
    + eexists. split; [reflexivity|]. split; [reflexivity|]. split; reflexivity.
    + rewrite <- Hk. symmetry. apply andb_true_intro. split; apply nlt_true; assumption.
  - intros G. destruct keep; [|reflexivity]. exfalso. apply G. bool_R. split; assumption.
Qed.
Print Assumptions C92_deep_recoils.
Definition deep_options : Options R := {|
  o_track_trajectories := false; o_track_recoils := true; o_track_recoil_trajectories := false;
  o_write_buffer_size := 8%nat; o_weak_collision_order := 0%nat; o_suppress_deep_recoils := true;
  o_high_energy_free_flight_paths := false; o_electronic_stopping_mode := LOW_ENERGY_NONLOCAL;
  o_mean_free_path_model := LIQUID;
  o_interaction_potential := [[COULOMB 1 1]];
  o_scattering_integral := [[GAUSS_MEHLER 0]];
  o_root_finder := [[DEFAULTNEWTON]];
  o_num_threads := 1%nat; o_num_chunks := 1%nat; o_use_hdf5 := false;
  o_track_displacements := true; o_track_energy_losses := true |}.
Example C92_applies : exists p2 c cs',
  let before := r_dir (mkV 0 1 0) in let bcg := mkBCG 0 1 1 in
  0 < p_Z before /\ 0 < p_m before /\
  choose_collision_partner (r_material 1 1) deep_options before bcg zero_rng 0%nat = Ok ((0%nat, p2), 1%nat) /\
  in_material (r_material 1 1) (p_pos p2) = true /\ in_barrier (r_material 1 1) (p_pos before) = Ok true /\
  calculate_binary_collision None before p2 bcg deep_options = Ok (Some c) /\
  average_bulk_binding_energy (r_material 1 1) (vx (p_pos p2)) (vy (p_pos p2)) (vz (p_pos p2)) = Ok 0 /\
  0 < p_E before - bcr_recoil_energy c /\
  collision_step None (r_material 1 1) deep_options 0 bcg (mkCS before [] 0 0 0 0 0%nat) zero_rng 0%nat = Ok (cs', 1%nat).
Proof.
  destruct (r_hits None deep_options (mkV 0 1 0) (mkBCG 0 1 1)) as (p2 & Hc & Hm & HZ & Hi & _ & Hin & Hb & Hstep).
  { unfold recoil_position. cbn [vx vy vz bcg_impact_parameter bcg_mfp bcg_phi_azimuthal r_dir set_p_dir p_dir]. toR. rewrite cos_0. replace (1 - 0 * 0) with 1 by ring. rewrite sqrt_1. lra. }
  destruct (r_back (mkV 0 1 0) 1 0 p2 Hm Hi) as (c & Hcb & Hth & Hpsi).
  change (calculate_binary_collision None (r_dir (mkV 0 1 0)) p2 (mkBCG 0 1 1) deep_options = Ok (Some c)) in Hcb.
  destruct (Hstep c Hcb) as (cs' & Hs & _). exists p2, c, cs'. cbv zeta.
  split; [cbn; lra|]. split; [cbn; lra|]. split; [exact Hc|]. split; [exact Hin|]. split; [exact Hb|]. split; [exact Hcb|]. split.
  - unfold average_bulk_binding_energy. cbn [r_material mat_geometry mesh0d_geometry g_get_concentrations bind mat_Eb m0_concentrations r_mesh].
    rewrite weighted_sum_R. cbn. f_equal. ring.
  - split; [|exact Hs]. apply cbc_kinematics in Hcb. destruct Hcb as (a & x0 & coul & Er). rewrite Er, Hth, Hm.
    change (p_m (r_dir (mkV 0 1 0))) with 1. change (p_E (r_dir (mkV 0 1 0))) with 1. cbn [collision_kinematics bcr_recoil_energy]. toR. rewrite sin_PI2. lra.
Qed.

(** ** C93: free flight paths at high energies *)
Theorem C93_free_flight_path :
  forall (mat : Material R) (options : Options R) (p : Particle R) rng n p' bcgs n' dens conc S ck,
    let x := vx (p_pos p) in let y := vy (p_pos p) in let z := vz (p_pos p) in
    let N := Rsum dens in
    let M2 := mean_over (mat_m mat) conc in
    let Z2 := mean_over (mat_Z mat) conc in
    let loss := continuous_loss S dens 1 in
    let mfp := Rpower N (-1 / 3) in
    let longest := path_for N (largest_impact_parameter (p_Z p) (p_m p) Z2 M2 (p_E p) (p_Ec p)) in
    let cap := 5 / 100 * p_E p / (loss * ck) in
    let path := Rmin longest cap in
    let u k := rng (n + Datatypes.S (o_weak_collision_order options) + k)%nat in
    o_high_energy_free_flight_paths options = true -> o_mean_free_path_model options = LIQUID ->
    g_get_densities (mat_geometry mat) x y z = Ok dens -> g_get_concentrations (mat_geometry mat) x y z = Ok conc ->
    g_get_ck (mat_geometry mat) x y z = Ok ck -> electronic_stopping_cross_sections mat p INTERPOLATED = Ok S ->
    0 < N -> 0 < M2 -> 0 < Z2 -> 0 < p_m p -> 0 < p_Z p -> 0 < p_E p -> 0 < p_Ec p -> 0 < loss * ck ->
    determine_mfp_phi_impact_parameter mat options p rng n = Ok ((p', bcgs), n') ->
    exists b, bcgs = [b] /\
      bcg_mfp b = (if p_first_step p then mfp * u 1%nat else Rmax mfp path) /\
      bcg_impact_parameter b =
        (if Rlt_dec path mfp then impact_for N mfp * sqrt (u 0%nat) else impact_for N path * sqrt (- ln (u 0%nat))).
Proof.
  intros mat options p rng n p' bcgs n' dens conc S ck x y z N M2 Z2 loss mfp longest cap path u Hh Hl Hd Hcn Hck HS HN HM2 HZ2 Hm HZ HE HEc Hloss H.
  destruct (mat_mfp_R _ _ _ _ _ Hd HN) as (Hmm & Hmpos). fold N in Hmm, Hmpos. fold mfp in Hmm, Hmpos.
  unfold determine_mfp_phi_impact_parameter in H. fold x y z in H. rewrite Hh, Hl in H.
  apply mbind_ok in H. destruct H as (mfp' & n1 & Hm' & H). apply mlift_ok in Hm'. destruct Hm' as (Hm' & ->).
  rewrite Hmm in Hm'. apply ok_inj in Hm'. subst mfp'.
  apply mbind_ok in H. destruct H as (rs & n2 & Hr & H). rewrite mrandoms_run in Hr. apply ok_inj in Hr. injection Hr as <- <-.
  apply mbind_ok in H. destruct H as (phi0 & n3 & Hp & H). apply mlift_ok in Hp. destruct Hp as (_ & ->).
  apply mbind_ok in H. destruct H as (Mb & n4 & HMb & H). apply mlift_ok in HMb. destruct HMb as (HMb & ->).
  unfold average_mass in HMb. rewrite Hcn in HMb. cbn [bind] in HMb. apply ok_inj in HMb. rewrite weighted_sum_R in HMb. change (M2 = Mb) in HMb. subst Mb.
  apply mbind_ok in H. destruct H as (Zb & n4 & HZb & H). apply mlift_ok in HZb. destruct HZb as (HZb & ->).
  unfold average_Z in HZb. rewrite Hcn in HZb. cbn [bind] in HZb. apply ok_inj in HZb. rewrite weighted_sum_R in HZb. change (Z2 = Zb) in HZb. subst Zb.
  apply mbind_ok in H. destruct H as (ck' & n4 & Hck' & H). apply mlift_ok in Hck'. destruct Hck' as (Hck' & ->).
  unfold electronic_stopping_correction_factor in Hck'. rewrite Hck in Hck'. apply ok_inj in Hck'. subst ck'.
  apply mbind_ok in H. destruct H as (nd & n4 & Hnd & H). apply mlift_ok in Hnd. destruct Hnd as (Hnd & ->).
  unfold total_number_density in Hnd. rewrite Hd in Hnd. cbn [bind] in Hnd. apply ok_inj in Hnd. rewrite nsum_R in Hnd. change (N = nd) in Hnd. subst nd.
  apply mbind_ok in H. destruct H as (S' & n4 & HS' & H). apply mlift_ok in HS'. destruct HS' as (HS' & ->). rewrite HS in HS'. apply ok_inj in HS'. subst S'.
  apply mbind_ok in H. destruct H as (dens' & n4 & Hd' & H). apply mlift_ok in Hd'. destruct Hd' as (Hd' & ->).
  unfold number_densities in Hd'. rewrite Hd in Hd'. apply ok_inj in Hd'. subst dens'.
  cbv zeta in H. rewrite weighted_sum_R in H. rewrite !lindhard_energy_R in H by assumption. rewrite lindhard_R in H by assumption.
  set (pm := largest_impact_parameter (p_Z p) (p_m p) Z2 M2 (p_E p) (p_Ec p)) in *.
  assert (Hmin : p_Ec p *! (p_m p +! M2) *! (p_m p +! M2) /! nZ 4 /! p_m p /! M2 = least_energy (p_m p) M2 (p_Ec p)).
  { unfold least_energy. toR. field. lra. }
  rewrite Hmin in H.
  assert (Hlp : 0 < least_energy (p_m p) M2 (p_Ec p)).
  { unfold least_energy. apply Rdiv_lt_0_compat; repeat (first [lra | apply pow_lt | apply Rmult_lt_0_compat]). }
  pose proof (lindhard_energy_pos _ _ _ _ _ HZ HZ2 Hm HM2 HE) as He1.
  pose proof (lindhard_energy_pos _ _ _ _ _ HZ HZ2 Hm HM2 Hlp) as He2.
  pose proof (lindhard_length_pos _ _ HZ HZ2) as Hlen.
  assert (He : 0 < sqrt (lindhard_energy (p_Z p) (p_m p) Z2 M2 (p_E p) * lindhard_energy (p_Z p) (p_m p) Z2 M2 (least_energy (p_m p) M2 (p_Ec p)))).
  { apply sqrt_lt_R0, Rmult_lt_0_compat; assumption. }
  assert (Hpm : pm = lindhard_length (p_Z p) Z2 /! (nsqrt (lindhard_energy (p_Z p) (p_m p) Z2 M2 (p_E p) *! lindhard_energy (p_Z p) (p_m p) Z2 M2 (least_energy (p_m p) M2 (p_Ec p))) +!
     nsqrt (nsqrt (lindhard_energy (p_Z p) (p_m p) Z2 M2 (p_E p) *! lindhard_energy (p_Z p) (p_m p) Z2 M2 (least_energy (p_m p) M2 (p_Ec p)))) +!
     nlit 125 (-3) *! npowf (nsqrt (lindhard_energy (p_Z p) (p_m p) Z2 M2 (p_E p) *! lindhard_energy (p_Z p) (p_m p) Z2 M2 (least_energy (p_m p) M2 (p_Ec p)))) (nlit 1 (-1)))).
  { unfold pm, largest_impact_parameter. rewrite npowf_pos by exact He. rewrite !nlit_neg. toR. change (IZR (10 ^ 3)) with 1000. change (IZR (10 ^ 1)) with 10.
    replace (125 / 1000) with (1 / 8) by lra. reflexivity. }
  rewrite <- Hpm in H.
  assert (Hpm0 : 0 < pm).
  { unfold pm, largest_impact_parameter. cbv zeta. set (e := sqrt _) in *. apply Rdiv_lt_0_compat; [exact Hlen|].
    pose proof (sqrt_lt_R0 _ He). assert (0 < Rpower e (1 / 10)) by apply exp_pos. lra. }
  change (Rsum (map (fun vc : R * R => fst vc * snd vc) (combine S dens))) with (fold_right Rplus 0 (map (fun vc : R * R => fst vc * snd vc) (combine S dens))) in H.
  assert (El : loss = fold_right Rplus 0 (map (fun vc : R * R => fst vc * snd vc) (combine S dens))) by (unfold loss, continuous_loss; ring).
  rewrite <- El in H. rewrite cSQRTPI_R in H. rewrite !nlit_neg in H. change (IZR (10 ^ 2)) with 100 in H.
  assert (Hlong : longest = 1 / (N * pm * pm * PI)) by (unfold longest, path_for; fold pm; field; pose proof PI_RGT_0; lra).
  pose proof PI_RGT_0 as Hpi.
  assert (Hlpos : 0 < longest).
  { rewrite Hlong. apply Rdiv_lt_0_compat; [lra|]. repeat (first [lra | apply Rmult_lt_0_compat]). }
  assert (Hcpos : 0 < cap). { unfold cap. apply Rdiv_lt_0_compat; lra. }
  assert (Himp : pm = impact_for N longest).
  { unfold impact_for. rewrite Hlong. replace (1 / (N * PI * (1 / (N * pm * pm * PI)))) with (pm * pm) by (field; lra). rewrite sqrt_square by lra. reflexivity. }
  assert (Hcode : forall b : bool, (nlt (5 / 100 * p_E p) (loss * longest * ck)) = b ->
    (if b then longest * (5 / 100 * p_E p / (loss * longest * ck)) else longest) = path /\
    (if b then sqrt (1 / (N * PI * (if b then longest * (5 / 100 * p_E p / (loss * longest * ck)) else longest))) else pm) = impact_for N path).
  { assert (Hle : loss <> 0 /\ ck <> 0) by (split; intros E0; rewrite E0 in Hloss; lra).
    assert (Hlc : cap = longest * (5 / 100 * p_E p / (loss * longest * ck))).
    { unfold cap. field. repeat split; try apply Hle; lra. }
    intros b Hb. rewrite <- Hlc.
    assert (Hcl : loss * ck * (longest - cap) = loss * longest * ck - 5 / 100 * p_E p). { unfold cap. field. tauto. }
    destruct b; bool_R.
    - assert (cap < longest) by nra. assert (Hpath : path = cap) by (unfold path; apply Rmin_right; lra). rewrite Hpath. split; reflexivity.
    - assert (longest <= cap) by nra. assert (Hpath : path = longest) by (unfold path; apply Rmin_left; lra). rewrite Hpath. split; [reflexivity|exact Himp]. }
  assert (Hmimp : mfp / sqrt PI = impact_for N mfp).
  { unfold impact_for. 
    assert (Hmm3 : N * mfp * mfp * mfp = 1).
    { unfold mfp. transitivity (Rpower N 1 * (Rpower N (-1 / 3) * Rpower N (-1 / 3) * Rpower N (-1 / 3))); [rewrite Rpower_1 by exact HN; ring|].
      rewrite <- !Rpower_plus. replace (1 + (-1 / 3 + -1 / 3 + -1 / 3)) with 0 by lra. apply Rpower_O. exact HN. }
    replace (1 / (N * PI * mfp)) with ((mfp * mfp) / PI).
    2:{ apply Rmult_eq_reg_l with (N * PI * mfp). 2:{ apply Rmult_integral_contrapositive_currified; [apply Rmult_integral_contrapositive_currified; lra|lra]. }
        transitivity (N * mfp * mfp * mfp); [field; lra|]. rewrite Hmm3. field. lra. }
    rewrite sqrt_div_alt by lra. rewrite sqrt_square by lra. reflexivity. }
  rewrite <- (Rmult_1_l 1) in Hlong at 1. rewrite Rmult_1_l in Hlong.
  assert (Hcomm : forall q, longest = 1 / (N * pm * pm * q) -> True) by auto. clear Hcomm.
  rewrite nZ_R in H. change (1 /! (N *! pm *! pm *! npi)) with (1 / (N * pm * pm * PI)) in H. rewrite <- Hlong in H.
  change (nlt (5 / 100 *! p_E p) (loss *! longest *! ck)) with (nlt (5 / 100 * p_E p) (loss * longest * ck)) in H.
  set (b := nlt (5 / 100 * p_E p) (loss * longest * ck)) in *.
  destruct (Hcode b eq_refl) as (Hc1 & Hc2).
  change (if b then longest *! (5 / 100 *! p_E p /! (loss *! longest *! ck)) else longest) with
    (if b then longest * (5 / 100 * p_E p / (loss * longest * ck)) else longest) in H.
  change (if b then nsqrt (1 /! (N *! npi *! (if b then longest * (5 / 100 * p_E p / (loss * longest * ck)) else longest))) else pm) with
    (if b then sqrt (1 / (N * PI * (if b then longest * (5 / 100 * p_E p / (loss * longest * ck)) else longest))) else pm) in H.
  rewrite Hc2 in H. rewrite Hc1 in H.
  assert (Hfs : forall L k (v : R) k', first_step_path (p_first_step p) L mfp rng k = Ok (v, k') -> v = if p_first_step p then mfp * rng k else L).
  { intros L k v k' Hf. unfold first_step_path in Hf. destruct (p_first_step p).
    - apply mbind_ok in Hf. destruct Hf as (r & ? & Hr & Hf). apply mrandom_ok in Hr. destruct Hr as (-> & ->). apply mret_ok in Hf. destruct Hf as (-> & _). reflexivity.
    - apply mret_ok in Hf. destruct Hf as (-> & _). reflexivity. }
  destruct (nlt path mfp) eqn:Hlt; bool_R.
  - apply mbind_ok in H; destruct H as (r0 & ? & Hr & H). apply mrandom_ok in Hr. destruct Hr as (-> & ->).
    apply mbind_ok in H; destruct H as (f & ? & Hfp & H). apply Hfs in Hfp.
    apply mbind_ok in H; destruct H as (fac & ? & Hfac & H). apply mret_ok in Hfac. destruct Hfac as (-> & ->).
    apply mret_ok in H. destruct H as (H & _). injection H; intros -> _.
    eexists. split; [reflexivity|]. cbn [bcg_mfp bcg_impact_parameter]. destruct (Rlt_dec path mfp); [|lra].
    rewrite (Rmax_left mfp path) by lra. rewrite Hfp. unfold u. rewrite Nat.add_1_r, Nat.add_0_r. split.
    + toR. ring.
    + change (mfp / sqrt PI * sqrt (rng (n + Datatypes.S (o_weak_collision_order options))%nat) = impact_for N mfp * sqrt (rng (n + Datatypes.S (o_weak_collision_order options))%nat)). rewrite Hmimp. reflexivity.
  - apply mbind_ok in H; destruct H as (r0 & ? & Hr & H). apply mrandom_ok in Hr. destruct Hr as (-> & ->).
    apply mbind_ok in H; destruct H as (f & ? & Hfp & H). apply Hfs in Hfp.
    apply mbind_ok in H; destruct H as (fac & ? & Hfac & H). apply mret_ok in Hfac. destruct Hfac as (-> & ->).
    apply mret_ok in H. destruct H as (H & _). injection H; intros -> _.
    eexists. split; [reflexivity|]. cbn [bcg_mfp bcg_impact_parameter]. destruct (Rlt_dec path mfp); [lra|].
    rewrite (Rmax_right mfp path) by lra. rewrite Hfp. unfold u. rewrite Nat.add_1_r, Nat.add_0_r. split; reflexivity.
Qed.
Print Assumptions C93_free_flight_path.

(** What holds of the limit on the loss: with a correction factor of at least one, a
    path longer than the mean free path costs at most five per cent. *)
Theorem C93_loss_limit_partial :
  forall (mat : Material R) (options : Options R) (p : Particle R) rng n p' b bcgs n' dens conc S ck,
    let x := vx (p_pos p) in let y := vy (p_pos p) in let z := vz (p_pos p) in
    o_high_energy_free_flight_paths options = true -> o_mean_free_path_model options = LIQUID -> p_first_step p = false ->
    g_get_densities (mat_geometry mat) x y z = Ok dens -> g_get_concentrations (mat_geometry mat) x y z = Ok conc ->
    g_get_ck (mat_geometry mat) x y z = Ok ck -> electronic_stopping_cross_sections mat p INTERPOLATED = Ok S ->
    0 < Rsum dens -> 0 < mean_over (mat_m mat) conc -> 0 < mean_over (mat_Z mat) conc ->
    0 < p_m p -> 0 < p_Z p -> 0 < p_E p -> 0 < p_Ec p -> 0 < continuous_loss S dens 1 -> 1 <= ck ->
    determine_mfp_phi_impact_parameter mat options p rng n = Ok ((p', b :: bcgs), n') ->
    Rpower (Rsum dens) (-1 / 3) < bcg_mfp b ->
    continuous_loss S dens (bcg_mfp b) <= 5 / 100 * p_E p.
Proof.
  intros mat options p rng n p' b bcgs n' dens conc S ck x y z Hh Hl Hf Hd Hcn Hck HS HN HM HZ2 Hm HZ HE HEc Hloss Hck1 H Hlong.
  assert (Hlc : 0 < continuous_loss S dens 1 * ck) by (apply Rmult_lt_0_compat; lra).
  destruct (C93_free_flight_path _ _ _ _ _ _ _ _ _ _ _ _ Hh Hl Hd Hcn Hck HS HN HM HZ2 Hm HZ HE HEc Hlc H) as (b' & Eb & Hpath & _).
  injection Eb as <- _. rewrite Hf in Hpath.
  set (cap := 5 / 100 * p_E p / (continuous_loss S dens 1 * ck)) in *.
  assert (Hle : bcg_mfp b <= cap).
  { rewrite Hpath in Hlong |- *. apply Rmax_lub; [|apply Rmin_r].
    set (m := Rpower (Rsum dens) (-1 / 3)) in *.
    match type of Hlong with _ < Rmax _ ?q => destruct (Rle_dec q m) as [Hq|Hq]; [rewrite (Rmax_left m q) in Hlong by exact Hq; lra|];
      pose proof (Rmin_r (path_for (Rsum dens) (largest_impact_parameter (p_Z p) (p_m p) (mean_over (mat_Z mat) conc) (mean_over (mat_m mat) conc) (p_E p) (p_Ec p))) cap) end. lra. }
  assert (E1 : continuous_loss S dens (bcg_mfp b) = continuous_loss S dens 1 * bcg_mfp b) by (unfold continuous_loss; ring).
  rewrite E1. set (l := continuous_loss S dens 1) in *. clearbody l.
  assert (Hpos : 0 < bcg_mfp b) by (pose proof (exp_pos (-1 / 3 * ln (Rsum dens))); unfold Rpower in Hlong; lra).
  assert (Hc : l * ck * cap = 5 / 100 * p_E p) by (unfold cap; field; lra).
  assert (l * bcg_mfp b <= l * cap) by (apply Rmult_le_compat_l; lra).
  assert (0 < cap) by lra. assert (l * cap * 1 <= l * cap * ck) by (apply Rmult_le_compat_l; [apply Rmult_le_pos; lra|lra]).
  replace (l * ck * cap) with (l * cap * ck) in Hc by ring. lra.
Qed.
Print Assumptions C93_loss_limit_partial.
(** an ion of energy 1 and cutoff 1 in the target of [ToyR] *)
Definition fly_options : Options R := {|
  o_track_trajectories := false; o_track_recoils := true; o_track_recoil_trajectories := false;
  o_write_buffer_size := 8%nat; o_weak_collision_order := 0%nat; o_suppress_deep_recoils := false;
  o_high_energy_free_flight_paths := true; o_electronic_stopping_mode := INTERPOLATED;
  o_mean_free_path_model := LIQUID;
  o_interaction_potential := [[COULOMB 1 1]];
  o_scattering_integral := [[GAUSS_MEHLER 0]];
  o_root_finder := [[DEFAULTNEWTON]];
  o_num_threads := 1%nat; o_num_chunks := 1%nat; o_use_hdf5 := false;
  o_track_displacements := true; o_track_energy_losses := true |}.
Lemma Rpower_one y : Rpower 1 y = 1.
Proof. unfold Rpower. rewrite ln_1, Rmult_0_r. apply exp_0. Qed.
Lemma fly_S : exists s, electronic_stopping_cross_sections (r_material 1 1) (r_at 1 1) INTERPOLATED = Ok [s] /\ 0 < s < 1 / 100.
Proof.
  eexists. split; [reflexivity|].
  change (0 < stopping_power INTERPOLATED 1 1 1 1 1 < 1 / 100).
  rewrite stopping_power_interpolated.
  pose proof (stopping_low_pos 1 1 1 1 ltac:(lra) ltac:(lra) ltac:(lra) ltac:(lra)) as Hl.
  pose proof (stopping_high_pos 1 1 1 1 ltac:(lra) ltac:(lra) ltac:(lra) ltac:(lra)) as Hh.
  assert (Hlow : stopping_low 1 1 1 1 < 1 / 100).
  { rewrite low_spec by lra. unfold lindhard_scharff. 
    assert (Hs : sqrt (1 / elementary_charge / (1 / atomic_mass)) < 1).
    { apply Rlt_le_trans with (sqrt 1); [|rewrite sqrt_1; lra]. pose proof charge_pos as Hq. pose proof amu_pos as Hu.
      assert (Hlt : atomic_mass < elementary_charge) by (unfold atomic_mass, elementary_charge; lra).
      replace (1 / elementary_charge / (1 / atomic_mass)) with (atomic_mass / elementary_charge) by (field; lra).
      set (el := elementary_charge) in *. set (am := atomic_mass) in *. clearbody el am.
      apply sqrt_lt_1_alt. split; [apply Rlt_le, Rdiv_lt_0_compat; assumption|].
      apply Rmult_lt_reg_r with el; [exact Hq|]. unfold Rdiv. rewrite Rmult_assoc, Rinv_l by lra. lra. }
    pose proof (sqrt_pos (1 / elementary_charge / (1 / atomic_mass))) as Hs0.
    set (q := sqrt _) in *. clearbody q. rewrite !Rpower_one.
    assert (H2 : 1 < Rpower (1 + 1) (3 / 2)).
    { rewrite <- (Rpower_O (1 + 1)) at 1 by lra. apply Rpower_lt; lra. }
    assert (H3 : 0 < 1 * 1 / Rpower (1 + 1) (3 / 2) < 1).
    { set (t := Rpower (1 + 1) (3 / 2)) in *. clearbody t. split; [apply Rdiv_lt_0_compat; lra|]. unfold Rdiv. rewrite !Rmult_1_l. rewrite <- Rinv_1. apply Rinv_lt_contravar; lra. }
    set (w := 1 * 1 / _) in *. clearbody w.
    assert (0 <= w * q < 1) by nra. unfold elementary_charge. lra. }
  set (l := stopping_low 1 1 1 1) in *. set (h := stopping_high 1 1 1 1) in *. clearbody l h.
  assert (H1 : 0 < 1 / h) by (apply Rdiv_lt_0_compat; lra). assert (H2 : 0 < 1 / l) by (apply Rdiv_lt_0_compat; lra).
  split; [apply Rdiv_lt_0_compat; lra|]. apply Rlt_trans with l; [|exact Hlow].
  assert (E : l = 1 / (1 / l)) by (field; lra). rewrite E at 2.
  unfold Rdiv at 1 4. rewrite !Rmult_1_l. apply Rinv_lt_contravar; [apply Rmult_lt_0_compat; lra|lra].
Qed.
Lemma fly_far : 1 < path_for 1 (largest_impact_parameter 1 1 1 2 1 1).
Proof.
  assert (H2 : 1 < Rpower 2 (2 / 3) < 2).
  { pose proof (Rpower_lt 2 0 (2 / 3) ltac:(lra) ltac:(lra)) as G1. pose proof (Rpower_lt 2 (2 / 3) 1 ltac:(lra) ltac:(lra)) as G2.
    rewrite Rpower_O in G1 by lra. rewrite Rpower_1 in G2 by lra. lra. }
  assert (Ha : 1 / 10 ^ 11 < lindhard_length 1 1 < 1 / 2).
  { unfold lindhard_length, bohr_radius. rewrite sqrt_1. replace (1 + 1) with 2 by lra. set (w := Rpower 2 (2 / 3)) in *. clearbody w.
    assert (/ 2 < / w < 1). { split; [apply Rinv_lt_contravar; nra|]. rewrite <- Rinv_1. apply Rinv_lt_contravar; lra. }
    unfold Rdiv at 2 4. lra. }
  assert (Hl : forall E, 1 <= E -> 1 < lindhard_energy 1 1 1 2 E).
  { intros E HE. unfold lindhard_energy. set (a := lindhard_length 1 1) in *. clearbody a.
    pose proof PI2_3_2. assert (H3 : 3 < PI) by lra.
    assert (H4 : 3 / 10 ^ 11 < PI * a * E). { assert (3 / 10 ^ 11 < PI * a) by nra. nra. }
    assert (E1 : 4 * PI * vacuum_permittivity * a * 2 * E / (1 * 1 * elementary_charge ^ 2 * (1 + 2)) = (8 / 3 * vacuum_permittivity / elementary_charge ^ 2) * (PI * a * E)).
    { field. pose proof charge_pos. lra. }
    rewrite E1. unfold vacuum_permittivity, elementary_charge. lra. }
  unfold largest_impact_parameter, path_for. cbv zeta.
  assert (He : 1 < sqrt (lindhard_energy 1 1 1 2 1 * lindhard_energy 1 1 1 2 (least_energy 1 2 1))).
  { rewrite <- sqrt_1 at 1. apply sqrt_lt_1_alt. pose proof (Hl 1 ltac:(lra)). pose proof (Hl (least_energy 1 2 1) ltac:(unfold least_energy; lra)). split; [lra|nra]. }
  set (e := sqrt _) in *. clearbody e. pose proof (sqrt_pos e). assert (0 < Rpower e (1 / 10)) by apply exp_pos.
  set (a := lindhard_length 1 1) in *. clearbody a.
  set (d := e + sqrt e + 1 / 8 * Rpower e (1 / 10)). assert (Hd : 1 < d) by (unfold d; lra). clearbody d.
  assert (Hp : 0 < a / d < 1 / 2).
  { split; [apply Rdiv_lt_0_compat; lra|]. apply Rle_lt_trans with (a * 1); [|lra]. unfold Rdiv. apply Rmult_le_compat_l; [lra|].
    rewrite <- Rinv_1. apply Rlt_le, Rinv_lt_contravar; lra. }
  set (p := a / d) in *. clearbody p. pose proof PI_RGT_0. pose proof PI_4.
  assert (0 < 1 * PI * p ^ 2 < 1) by (split; [repeat (first [lra | apply pow_lt | apply Rmult_lt_0_compat])|nra]).
  set (t := 1 * PI * p ^ 2) in *. clearbody t. apply Rmult_lt_reg_r with t; [lra|]. unfold Rdiv. rewrite Rmult_1_l, Rmult_1_l, Rinv_l by lra. lra.
Qed.
Example C93_applies : exists s b n',
  let ion := r_at 1 1 in let m := r_material 1 1 in
  g_get_densities (mat_geometry m) 5 0 0 = Ok [1] /\ g_get_concentrations (mat_geometry m) 5 0 0 = Ok [1] /\ g_get_ck (mat_geometry m) 5 0 0 = Ok 1 /\
  electronic_stopping_cross_sections m ion INTERPOLATED = Ok [s] /\
  0 < Rsum [1] /\ 0 < mean_over (mat_m m) [1] /\ 0 < mean_over (mat_Z m) [1] /\
  0 < p_m ion /\ 0 < p_Z ion /\ 0 < p_E ion /\ 0 < p_Ec ion /\ p_first_step ion = false /\ 0 < continuous_loss [s] [1] 1 /\
  determine_mfp_phi_impact_parameter m fly_options ion zero_rng 0%nat = Ok ((ion, [b]), n') /\
  Rpower (Rsum [1]) (-1 / 3) < bcg_mfp b.
Proof.
  destruct fly_S as (s & HS & Hs).
  assert (Hex : exists b n', determine_mfp_phi_impact_parameter (r_material 1 1) fly_options (r_at 1 1) zero_rng 0%nat = Ok ((r_at 1 1, [b]), n')).
  { unfold determine_mfp_phi_impact_parameter.
    change (vx (p_pos (r_at 1 1))) with 5. change (vy (p_pos (r_at 1 1))) with 0. change (vz (p_pos (r_at 1 1))) with 0.
    change (o_high_energy_free_flight_paths fly_options) with true. change (o_mean_free_path_model fly_options) with (LIQUID : MeanFreePathModel R).
    change (o_weak_collision_order fly_options) with 0%nat.
    destruct (mat_mfp_R (r_material 1 1) 5 0 0 [1] eq_refl) as (Hmf & _); [cbn; lra|].
    unfold mbind, mlift, mret, mrandoms, mrandom, mbind, mret, first_step_path, mret. rewrite Hmf. cbv beta iota.
    change (p_first_step (r_at 1 1)) with false. rewrite HS.
    cbn [map idx nth_error average_mass average_Z electronic_stopping_correction_factor total_number_density number_densities r_material mat_geometry mesh0d_geometry g_get_densities g_get_concentrations g_get_ck bind]. cbv beta iota zeta.
    match goal with |- context [if nlt ?a ?b then _ else _] => destruct (nlt a b) end; match goal with |- exists b n', Ok ((_, [?u]), ?v) = _ => exists u, v end; reflexivity. }
  destruct Hex as (b & n' & Hex). exists s, b, n'. cbv zeta.
  assert (E1 : Rsum [1] = 1) by (cbn; ring). assert (E2 : mean_over [2] [1] = 2) by (cbn; ring). assert (E3 : mean_over [1] [1] = 1) by (cbn; ring).
  assert (E4 : continuous_loss [s] [1] 1 = s) by (unfold continuous_loss; cbn [combine map fold_right fst snd]; ring).
  split; [reflexivity|]. split; [reflexivity|]. split; [reflexivity|]. split; [exact HS|].
  change (mat_m (r_material 1 1)) with [2]. change (mat_Z (r_material 1 1)) with [1]. rewrite E1, E2, E3, E4.
  change (p_m (r_at 1 1)) with 1. change (p_Z (r_at 1 1)) with 1. change (p_E (r_at 1 1)) with 1. change (p_Ec (r_at 1 1)) with 1.
  do 7 (split; [lra|]). split; [reflexivity|]. split; [lra|]. split; [exact Hex|].
  destruct (C93_free_flight_path (r_material 1 1) fly_options (r_at 1 1) zero_rng 0%nat (r_at 1 1) [b] n' [1] [1] [s] 1) as (b' & Eb & Hp & _); try reflexivity; try exact HS.
  - rewrite E1. lra.
  - change (mat_m (r_material 1 1)) with [2]. rewrite E2. lra.
  - change (mat_Z (r_material 1 1)) with [1]. rewrite E3. lra.
  - cbn. lra.
  - cbn. lra.
  - cbn. lra.
  - cbn. lra.
  - rewrite E4. lra.
  - exact Hex.
  - injection Eb as <-. rewrite Hp. change (p_first_step (r_at 1 1)) with false. cbv iota.
    change (mat_m (r_material 1 1)) with [2]. change (mat_Z (r_material 1 1)) with [1]. rewrite E1, E2, E3, E4.
    change (p_m (r_at 1 1)) with 1. change (p_Z (r_at 1 1)) with 1. change (p_E (r_at 1 1)) with 1. change (p_Ec (r_at 1 1)) with 1.
    rewrite Rpower_one. apply Rlt_le_trans with (2 := Rmax_r _ _). apply Rmin_glb_lt; [exact fly_far|].
    apply Rmult_lt_reg_r with (s * 1); [lra|]. replace (5 / 100 * 1 / (s * 1) * (s * 1)) with (5 / 100) by (field; lra). lra.
Qed.

(** What fails: the correction factor multiplies cross sections that already contain
    it, so with a factor below one the limit is too generous.  With the factor 1/2 a
    1 MeV helium ion in copper loses more than nine per cent of its energy on one
    free flight path. *)
Theorem C93_refuted_loss_limit :
  exists mesh ion out n e,
    @mesh0d_new _ series_num half_input = Ok mesh /\
    @from_input _ series_num fast flight_options = Ok ion /\
    @single_ion_bca _ series_num None (copper mesh) flight_options 60 ion (draws []) 0%nat = Ok ([out], n) /\
    In e (p_energies out) /\ SFltb (@nmul _ series_num (@nlit _ series_num 9 (-2)) (p_E ion)) (el_Ee e) = true.
Proof.
  destruct (run_with_inv _ _ _ _ _ _ flight_runs) as (mesh & ion & out & n & H1 & H2 & H3 & H).
  unfold loses_too_much in H. destruct out as [|out [|]]; try discriminate H.
  apply existsb_exists in H. destruct H as (e & He & Hlt). exists mesh, ion, out, n, e. auto.
Qed.
Print Assumptions C93_refuted_loss_limit.
