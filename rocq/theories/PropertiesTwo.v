(** * PropertiesTwo.v - C81..C85: comparisons of two simulations, list interfaces ion by ion, stopping formulas *)
From Coq Require Import ZArith List Bool Lia Reals Lra Floats.SpecFloat.
From Verif Require Import Num NumSF NumR ModelTypes ModelConsts ModelParticle ModelGeometry ModelMaterial ModelInteractions ModelBca ModelInput ModelLib.
From Verif Require Import Spec SpecLib SpecTwo SpecShift ProofsBase ProofsMaterial ProofsLib ProofsTwo ProofsShift Toy ToyR.
Import ListNotations.
Open Scope nat_scope.

(** ** C81: bookkeeping does not influence the physics *)
Theorem C81_bookkeeping_is_inert :
  forall {F} {NF : Num F} (build : Build F) (mat : Material F) (o o' : Options F) fuel (p q : Particle F) rng n,
    same_physics_options o o' -> same_physics p q ->
    agree_run (Forall2 same_physics) (single_ion_bca build mat o fuel p rng n) (single_ion_bca build mat o' fuel q rng n).
Proof. intros F NF build mat o o' fuel p q rng n HO HP. exact (sp_single mat o o' HO build fuel p q HP rng n). Qed.
Print Assumptions C81_bookkeeping_is_inert.

(** the rows of the tagged interface without the caller's own position data *)
Definition physical_columns {F} (row : list F) : list F := firstn 3 row ++ skipn 6 row.
Lemma sp_tagged_loop {F} {NF : Num F} build (mat : Material F) o fuel (a b : InputTagged F) x :
  it_Z1 a = it_Z1 b -> it_m1 a = it_m1 b -> it_Ec1 a = it_Ec1 b -> it_Es1 a = it_Es1 b ->
  length (it_weights a) = length (it_weights b) -> length (it_tags a) = length (it_tags b) ->
  length (it_positions a) = length (it_positions b) ->
  forall vs k, magree (Forall2 same_physics) (tagged_loop build mat o fuel a x k vs) (tagged_loop build mat o fuel b x k vs).
Proof.
  intros E1 E2 E3 E4 L1 L2 L3 vs. induction vs as [|v vs IH]; intros k; [apply magree_ret; constructor|].
  cbn [tagged_loop]. eapply magree_bind with (R := same_physics).
  - apply magree_lift. unfold tagged_ion.
    assert (HI : forall A (l l' : list A), length l = length l' -> agree (fun _ _ => True) (idx l k) (idx l' k)).
    { intros A l l' Hl. unfold idx. destruct (nth_error l k) eqn:N1, (nth_error l' k) eqn:N2; cbn; auto.
      - apply nth_error_None in N2. assert (k < length l) by (apply nth_error_Some; congruence). lia.
      - apply nth_error_None in N1. assert (k < length l') by (apply nth_error_Some; congruence). lia. }
    eapply agree_bind; [apply HI; exact L1|]. intros w w' _.
    eapply agree_bind; [apply HI; exact L2|]. intros t t' _.
    eapply agree_bind; [apply HI; exact L3|]. intros c c' _.
    rewrite E1, E2, E3, E4. unfold agree, velocity_ion, literal_incident, same_physics. cbn. tauto.
  - intros p q HP. eapply magree_bind.
    + apply (sp_single mat o o); [unfold same_physics_options; tauto|exact HP].
    + intros out out' HO. eapply magree_bind; [apply IH|]. intros outs outs' HOs. apply magree_ret.
      apply Forall2_app; assumption.
Qed.
(** The tagged C interface: two calls that differ only in tags, weights and
    positions report the same particles in the same order. *)
Theorem C81_tags_weights_positions_are_inert :
  forall {F} {NF : Num F} build fuel (a b : InputTagged F) rng n,
    it_velocities a = it_velocities b -> it_Z1 a = it_Z1 b -> it_m1 a = it_m1 b -> it_Ec1 a = it_Ec1 b -> it_Es1 a = it_Es1 b ->
    it_Z2 a = it_Z2 b -> it_m2 a = it_m2 b -> it_n2 a = it_n2 b -> it_Ec2 a = it_Ec2 b -> it_Es2 a = it_Es2 b -> it_Eb2 a = it_Eb2 b ->
    length (it_weights a) = length (it_weights b) -> length (it_tags a) = length (it_tags b) ->
    length (it_positions a) = length (it_positions b) ->
    agree_run (fun r s => ot_len r = ot_len s /\ ot_incident r = ot_incident s /\
                          map physical_columns (ot_particles r) = map physical_columns (ot_particles s))
      (compound_tagged_bca_list_c build fuel a rng n) (compound_tagged_bca_list_c build fuel b rng n).
Proof.
  intros F NF build fuel a b rng n E0 E1 E2 E3 E4 E5 E6 E7 E8 E9 E10 L1 L2 L3.
  revert rng n. match goal with |- forall rng n, agree_run ?R (?x rng n) (?y rng n) => change (magree R x y) end.
  unfold compound_tagged_bca_list_c. rewrite E0, E5, E6, E7, E8, E9, E10.
  eapply magree_bind; [apply magree_refl|]. intros mat ? <-.
  eapply magree_bind; [eapply sp_tagged_loop; eassumption|]. intros ps qs HP.
  rewrite !tagged_collect_spec. cbn [app]. apply magree_ret. cbn [ot_len ot_incident ot_particles]. rewrite !map_length.
  induction HP as [|p q ps qs HPQ HP (I1 & I2 & I3)]; [cbn; auto|]. cbn [filter].
  assert (HE : reported p = reported q) by (unfold reported; unfold same_physics in HPQ; destruct HPQ as (?&?&?&?&?&?&?&?&?&?&?&?&?&?&H14&H15&?); congruence).
  rewrite HE. destruct (reported q); [|auto]. cbn [map length]. rewrite I1, I2, I3. split; [reflexivity|].
  unfold same_physics in HPQ. destruct HPQ as (H1&H2&H3&?&?&?&?&H8&?&?&?&?&?&?&?&H16&?).
  split; [congruence|]. f_equal. unfold physical_columns, row9_tagged. cbn [firstn skipn app]. rewrite H1, H2, H3, H8. reflexivity.
Qed.
Print Assumptions C81_tags_weights_positions_are_inert.
(** applies: other weight, tag and tracked vector, tracking switched off *)
Definition relabelled (p : Particle spec_float) : Particle spec_float := {|
  p_m := p_m p; p_Z := p_Z p; p_E := p_E p; p_Ec := p_Ec p;
  p_Es := p_Es p; p_Ed := p_Ed p; p_pos := p_pos p; p_dir := p_dir p;
  p_pos_old := p_pos_old p; p_dir_old := p_dir_old p; p_pos_origin := p_pos_origin p; p_energy_origin := p_energy_origin p;
  p_asymptotic_deflection := p_asymptotic_deflection p; p_stopped := p_stopped p; p_left := p_left p; p_incident := p_incident p;
  p_first_step := p_first_step p; p_trajectory := p_trajectory p; p_energies := p_energies p; p_number_collision_events := p_number_collision_events p;
  p_backreflected := p_backreflected p; p_interaction_index := p_interaction_index p;
  p_track_trajectories := false; p_weight := nZ 7; p_tag := 5; p_tracked_vector := mkV (nZ 1) (nZ 2) (nZ 3) |}.
Lemma relabelled_same p : same_physics p (relabelled p).
Proof. unfold same_physics, relabelled. cbn. tauto. Qed.
Definition quiet_options : Options spec_float := {|
  o_track_trajectories := false; o_track_recoils := true; o_track_recoil_trajectories := false;
  o_write_buffer_size := 1; o_weak_collision_order := 0; o_suppress_deep_recoils := false;
  o_high_energy_free_flight_paths := false; o_electronic_stopping_mode := LOW_ENERGY_NONLOCAL;
  o_mean_free_path_model := LIQUID;
  o_interaction_potential := o_interaction_potential toy_options; o_scattering_integral := o_scattering_integral toy_options;
  o_root_finder := o_root_finder toy_options; o_num_threads := 9; o_num_chunks := 3; o_use_hdf5 := true;
  o_track_displacements := false; o_track_energy_losses := false |}.
Example C81_applies : same_physics_options toy_options quiet_options /\ same_physics toy_ion (relabelled toy_ion) /\
  1 < length toy_out /\ p_weight (relabelled toy_ion) <> p_weight toy_ion.
Proof.
  split; [unfold same_physics_options; cbn; tauto|]. split; [apply relabelled_same|].
  split; [vm_compute; lia|vm_compute; discriminate].
Qed.

(** ** C82: translation symmetry of flat targets (exact arithmetic) *)
Theorem C82_moving_the_ion_along_a_flat_surface :
  forall (build : Build R) (mat : Material R) options fuel (p : Particle R) rng n ty tz,
    (exists g, mat_geometry mat = mesh0d_geometry g) \/ (exists g, mat_geometry mat = mesh1d_geometry g) ->
    let t := mkV 0%R ty tz in
    agree_run (fun out out' => out' = map (shift t) out)
      (single_ion_bca build mat options fuel p rng n) (single_ion_bca build mat options fuel (shift t p) rng n).
Proof.
  intros build mat options fuel p rng n ty tz HG t. refine (sh_single t mat options _ _ build fuel p rng n).
  - destruct HG as [(g & ->)|(g & ->)]; [apply mesh0d_symmetric|apply mesh1d_symmetric].
  - destruct HG as [(g & ->)|(g & ->)]; [apply mesh0d_uniform|apply mesh1d_uniform].
Qed.
Print Assumptions C82_moving_the_ion_along_a_flat_surface.
Theorem C82_moving_the_ion_along_the_axis_of_a_2d_mesh :
  forall (build : Build R) (mat : Material R) options fuel (p : Particle R) rng n tz,
    (exists g, mat_geometry mat = mesh2d_geometry g) \/ (exists g, mat_geometry mat = homogeneous2d_geometry g) ->
    let t := mkV 0%R 0%R tz in
    agree_run (fun out out' => out' = map (shift t) out)
      (single_ion_bca build mat options fuel p rng n) (single_ion_bca build mat options fuel (shift t p) rng n).
Proof.
  intros build mat options fuel p rng n tz HG t. refine (sh_single t mat options _ _ build fuel p rng n).
  - destruct HG as [(g & ->)|(g & ->)]; [apply mesh2d_symmetric|apply homogeneous2d_symmetric].
  - destruct HG as [(g & ->)|(g & ->)]; [apply mesh2d_uniform|apply homogeneous2d_uniform].
Qed.
Print Assumptions C82_moving_the_ion_along_the_axis_of_a_2d_mesh.
Example C82_applies :
  (exists g, mat_geometry (r_material 1 1) = mesh0d_geometry g) /\
  shift (mkV 0%R 3%R 4%R) (r_ion 1 1 1 0) <> r_ion 1 1 1 0.
Proof.
  split; [exists (r_mesh 1); reflexivity|]. intros H. apply (f_equal (fun p => vy (p_pos p))) in H. cbn in H. lra.
Qed.

(** ** C83, C85: electronic stopping *)
Lemma shipped_uniform {F} {NF : Num F} (g : Geometry F) : shipped g -> uniform_in_z g.
Proof.
  destruct 1; [apply mesh0d_uniform|apply mesh1d_uniform|apply mesh2d_uniform|apply homogeneous2d_uniform|
    apply sphere_uniform|apply ball_uniform|apply trimesh_uniform].
Qed.
(** line 272 of material.rs reads the position's y for z; on the geometries that exist it
    makes no difference, in any arithmetic. *)
Theorem C83_stopping_is_taken_at_the_particle :
  forall {F} {NF : Num F} (mat : Material F) (p : Particle F) mode,
    shipped (mat_geometry mat) ->
    electronic_stopping_cross_sections mat p mode =
    bind (g_get_ck (mat_geometry mat) (vx (p_pos p)) (vy (p_pos p)) (vz (p_pos p))) (fun ck =>
    bind (g_get_densities (mat_geometry mat) (vx (p_pos p)) (vy (p_pos p)) (vz (p_pos p))) (fun n =>
    Ok (map (fun Zb => stopping_power mode ck (p_E p) (p_m p) (p_Z p) Zb) (firstn (length n) (mat_Z mat))))).
Proof.
  intros F NF mat p mode HS. apply shipped_uniform in HS.
  destruct (HS (vx (p_pos p)) (vy (p_pos p)) (vy (p_pos p)) (vz (p_pos p))) as (H1 & H2).
  unfold electronic_stopping_cross_sections, electronic_stopping_correction_factor, number_densities. rewrite H1, H2. clear HS H1 H2.
  destruct (g_get_ck (mat_geometry mat) (vx (p_pos p)) (vy (p_pos p)) (vz (p_pos p))) as [ck|k|]; [|reflexivity|reflexivity].
  destruct (g_get_densities (mat_geometry mat) (vx (p_pos p)) (vy (p_pos p)) (vz (p_pos p))) as [n|k|]; [|reflexivity|reflexivity]. cbn [bind].
  f_equal. unfold zip. generalize (mat_Z mat). clear. induction n as [|d n IH]; intros [|z zs]; [reflexivity|reflexivity|reflexivity|]. cbn [combine map snd length firstn]. f_equal. apply IH.
Qed.
Print Assumptions C83_stopping_is_taken_at_the_particle.
Example C83_applies : shipped (mat_geometry toy_material) /\
  exists S, electronic_stopping_cross_sections toy_material toy_ion LOW_ENERGY_NONLOCAL = Ok S /\ length S = 1.
Proof. split; [apply shipped_0d|]. eexists. split; [vm_compute; reflexivity|reflexivity]. Qed.

Section Formulas.
  Open Scope R_scope.
  Lemma cQ_spec : (cQ : R) = elementary_charge.
  Proof. unfold cQ, elementary_charge. rewrite nlit_neg. f_equal. rewrite (pow_IZR 10 28). reflexivity. Qed.
  Lemma cAMU_spec : (cAMU : R) = atomic_mass.
  Proof. unfold cAMU, atomic_mass. rewrite nlit_neg. f_equal. rewrite (pow_IZR 10 38). reflexivity. Qed.
  Lemma cME_spec : (cME : R) = electron_mass.
  Proof. unfold cME, electron_mass. rewrite nlit_neg. f_equal. rewrite (pow_IZR 10 41). reflexivity. Qed.
  Lemma cEPS0_spec : (cEPS0 : R) = vacuum_permittivity.
  Proof. unfold cEPS0, vacuum_permittivity. rewrite nlit_neg. f_equal. rewrite (pow_IZR 10 22). reflexivity. Qed.
  Lemma cC_spec : (cC : R) = light_speed.
  Proof. unfold cC. apply nZ_R. Qed.
  Lemma cANG_spec : (cANGSTROM : R) = 1 / 10 ^ 10.
  Proof. unfold cANGSTROM. rewrite nlit_neg. f_equal. rewrite (pow_IZR 10 10). reflexivity. Qed.
  Lemma pow10_pos k : 0 < 10 ^ k. Proof. apply pow_lt. lra. Qed.
  Lemma charge_pos : 0 < elementary_charge. Proof. apply Rdiv_lt_0_compat; [lra|apply pow10_pos]. Qed.
  Lemma amu_pos : 0 < atomic_mass. Proof. apply Rdiv_lt_0_compat; [lra|apply pow10_pos]. Qed.
  Lemma emass_pos : 0 < electron_mass. Proof. apply Rdiv_lt_0_compat; [lra|apply pow10_pos]. Qed.
  Lemma eps_pos : 0 < vacuum_permittivity. Proof. apply Rdiv_lt_0_compat; [lra|apply pow10_pos]. Qed.

  Lemma low_spec E Ma Za Zb : 0 < E -> 0 < Ma -> 0 < Za -> 0 < Zb -> stopping_low E Ma Za Zb = lindhard_scharff E Ma Za Zb.
  Proof.
    intros HE HM HA HB. unfold stopping_low, cLINDHARD_SCHARFF_PREFACTOR. rewrite cQ_spec, cAMU_spec, cANG_spec.
    rewrite (npowf_pos Za), (npowf_pos Za), (npowf_pos Zb) by assumption.
    rewrite nadd_R, npowf_pos by (unfold Rpower; pose proof (exp_pos ((nZ 2 /! nZ 3)%num * ln Za)); pose proof (exp_pos ((nZ 2 /! nZ 3)%num * ln Zb)); lra).
    change (@nlit R NumR) with Rlit. toR. unfold lindhard_scharff.
    replace (Rlit 1212 (-3)) with (1212 / 1000) by (unfold Rlit; simpl; lra).
    replace (E / elementary_charge / (Ma / atomic_mass)) with (E / elementary_charge / Ma * atomic_mass)
      by (pose proof charge_pos; pose proof amu_pos; field; repeat split; lra).
    set (P := Rpower (_ + _) _). assert (0 < P) by apply exp_pos. set (W := 1 / 10 ^ 10). field. lra.
  Qed.

  Lemma beta_spec E Ma : 0 < E -> 0 < Ma -> 0 < beta_squared E Ma /\ stopping_beta E Ma = sqrt (beta_squared E Ma).
  Proof.
    intros HE HM. assert (Hc : 0 < light_speed) by (unfold light_speed; lra).
    assert (HL : 1 < lorentz E Ma).
    { unfold lorentz. assert (0 < E / (Ma * light_speed ^ 2)); [|lra]. apply Rdiv_lt_0_compat; [lra|]. apply Rmult_lt_0_compat; [lra|]. apply pow_lt. lra. }
    split.
    - unfold beta_squared. assert (1 / lorentz E Ma ^ 2 < 1); [|lra]. apply Rmult_lt_reg_r with (lorentz E Ma ^ 2); [nra|].
      unfold Rdiv. rewrite Rmult_assoc, Rinv_l by nra. nra.
    - unfold stopping_beta. rewrite npowi2_R, cC_spec. toR.
      replace (1 + E / Ma / (light_speed * light_speed)) with (lorentz E Ma) by (unfold lorentz; field; split; lra).
      rewrite npowf_pos by lra. f_equal. unfold beta_squared. f_equal.
      change (IZR (-2)) with (- IZR 2). rewrite Rpower_Ropp. replace 2 with (INR 2) by (simpl; lra). rewrite Rpower_pow by lra. unfold Rdiv. rewrite Rmult_1_l. reflexivity.
  Qed.
  Lemma ionisation_pos Zb : 0 < Zb -> 0 < ionisation Zb.
  Proof.
    intros HZ. unfold ionisation. apply Rmult_lt_0_compat; [|apply charge_pos]. apply Rmult_lt_0_compat; [assumption|].
    destruct (Rlt_dec Zb 13).
    - assert (0 < 7 / Zb) by (apply Rdiv_lt_0_compat; lra). lra.
    - assert (0 < Rpower Zb (- 119 / 100)) by apply exp_pos. lra.
  Qed.
  Lemma high_spec E Ma Za Zb : 0 < E -> 0 < Ma -> 0 < Za -> 0 < Zb -> stopping_high E Ma Za Zb = bethe E Ma Za Zb.
  Proof.
    intros HE HM HA HB. destruct (beta_spec E Ma HE HM) as (Hb & Hbeta). unfold stopping_high. rewrite Hbeta.
    pose proof (ionisation_pos Zb HB) as HI. pose proof emass_pos as Hm. pose proof eps_pos as He. pose proof PI_RGT_0 as Hpi.
    assert (Hc : 0 < light_speed) by (unfold light_speed; lra).
    set (b := sqrt (beta_squared E Ma)). assert (Hbb : b * b = beta_squared E Ma) by (apply sqrt_sqrt; lra).
    assert (Hb0 : 0 < b) by (apply sqrt_lt_R0; assumption).
    assert (EI : (Zb *! (if Zb <! nZ 13 then nZ 12 +! nZ 7 /! Zb else nlit 976 (-2) +! nlit 585 (-1) *! npowf Zb (nlit (-119) (-2))) *! cQ)%num = ionisation Zb).
    { unfold ionisation. rewrite cQ_spec. rewrite !nmul_R. f_equal. f_equal. destruct (Rlt_dec Zb 13) as [h|h].
      - rewrite (proj2 (nlt_true Zb (nZ 13))) by (rewrite nZ_R; exact h). rewrite nadd_R, ndiv_R, !nZ_R. reflexivity.
      - rewrite (proj2 (nlt_false Zb (nZ 13))) by (rewrite nZ_R; lra). rewrite nadd_R, nmul_R, npowf_pos by assumption. rewrite !nlit_neg. simpl (10 ^ _)%Z. reflexivity. }
    assert (EB : (if Zb <! nZ 3 then nZ 100 *! Za /! Zb else nZ 5)%num = shell Za Zb).
    { unfold shell. destruct (Rlt_dec Zb 3) as [h|h].
      - rewrite (proj2 (nlt_true Zb (nZ 3))) by (rewrite nZ_R; exact h). rewrite ndiv_R, nmul_R, !nZ_R. reflexivity.
      - rewrite (proj2 (nlt_false Zb (nZ 3))) by (rewrite nZ_R; lra). rewrite nZ_R. reflexivity. }
    cbv zeta. rewrite EI, EB. unfold cBETHE_BLOCH_PREFACTOR. rewrite cQ_spec, cEPS0_spec, cME_spec. rewrite cC_spec.
    change (npi : R) with PI. toR. unfold bethe. cbv zeta. rewrite <- Hbb.
    assert (HX : 2 * electron_mass * (b * light_speed) * (b * light_speed) / ionisation Zb = 2 * electron_mass * (b * b * light_speed ^ 2) / ionisation Zb).
    { field. lra. }
    rewrite HX. set (eb := 2 * electron_mass * (b * b * light_speed ^ 2) / ionisation Zb). set (L := ln _).
    field. repeat split; lra.
  Qed.
End Formulas.

(** Each target atom's cross section at the particle's own position: Lindhard-Scharff
    times the correction factor, or the Biersack-Varelas combination with Bethe. *)
Theorem C85_stopping_formulas :
  forall (mat : Material R) (p : Particle R) mode S,
    shipped (mat_geometry mat) ->
    (0 < p_E p)%R -> (0 < p_m p)%R -> (0 < p_Z p)%R -> Forall (fun Z => 0 < Z)%R (mat_Z mat) ->
    electronic_stopping_cross_sections mat p mode = Ok S ->
    exists ck n,
      g_get_ck (mat_geometry mat) (vx (p_pos p)) (vy (p_pos p)) (vz (p_pos p)) = Ok ck /\
      g_get_densities (mat_geometry mat) (vx (p_pos p)) (vy (p_pos p)) (vz (p_pos p)) = Ok n /\
      Forall2 (fun Z s =>
          let low := lindhard_scharff (p_E p) (p_m p) (p_Z p) Z in
          let high := bethe (p_E p) (p_m p) (p_Z p) Z in
          match mode with
          | INTERPOLATED => s = 1 / (1 / high + ck / low)
          | _ => s = ck * low
          end)%R (firstn (length n) (mat_Z mat)) S.
Proof.
  intros mat p mode S HS HE HM HZ HZs H. rewrite C83_stopping_is_taken_at_the_particle in H by assumption.
  apply bind_ok in H. destruct H as (ck & Hck & H). apply bind_ok in H. destruct H as (n & Hn & H).
  exists ck, n. split; [assumption|]. split; [assumption|]. injection H as <-.
  assert (HF : Forall (fun Z => 0 < Z)%R (firstn (length n) (mat_Z mat))).
  { rewrite <- (firstn_skipn (length n) (mat_Z mat)) in HZs. apply Forall_app in HZs. tauto. }
  induction HF as [|Z Zs HZ1 HF IH]; [constructor|]. cbn [map]. constructor; [|exact IH].
  cbv zeta. rewrite <- low_spec, <- high_spec by assumption. destruct mode.
  - rewrite stopping_power_interpolated. f_equal. f_equal. unfold Rdiv. ring.
  - rewrite stopping_power_low by discriminate. reflexivity.
  - rewrite stopping_power_low by discriminate. reflexivity.
  - rewrite stopping_power_low by discriminate. reflexivity.
Qed.
Print Assumptions C85_stopping_formulas.
(** The cross sections depend on energy and mass only through the speed, and the
    low-energy one is proportional to it. *)
Theorem C85_stopping_depends_on_the_speed :
  forall E m Z1 Z2 k, (0 < E)%R -> (0 < m)%R -> (0 < k)%R ->
    lindhard_scharff (k * E) (k * m) Z1 Z2 = lindhard_scharff E m Z1 Z2 /\
    bethe (k * E) (k * m) Z1 Z2 = bethe E m Z1 Z2 /\
    lindhard_scharff (k * k * E) m Z1 Z2 = (k * lindhard_scharff E m Z1 Z2)%R.
Proof.
  intros E m Z1 Z2 k HE Hm Hk. pose proof charge_pos. pose proof amu_pos. split; [|split].
  - unfold lindhard_scharff. f_equal. f_equal. field. repeat split; lra.
  - unfold bethe, beta_squared, lorentz.
    replace (k * E / (k * m * light_speed ^ 2))%R with (E / (m * light_speed ^ 2))%R; [reflexivity|].
    field. unfold light_speed. repeat split; lra.
  - unfold lindhard_scharff.
    replace (k * k * E / elementary_charge / (m / atomic_mass))%R with (k * k * (E / elementary_charge / (m / atomic_mass)))%R by (field; repeat split; lra).
    rewrite sqrt_mult_alt by nra. rewrite sqrt_square by lra. ring.
Qed.
Print Assumptions C85_stopping_depends_on_the_speed.
Example C85_applies : exists S, electronic_stopping_cross_sections (r_material 1 7) (r_ion 1 5 1 0) LOW_ENERGY_LOCAL = Ok S /\
  shipped (mat_geometry (r_material 1 7)) /\ (0 < p_E (r_ion 1 5 1 0))%R /\ (0 < p_m (r_ion 1 5 1 0))%R /\ (0 < p_Z (r_ion 1 5 1 0))%R /\
  Forall (fun Z => 0 < Z)%R (mat_Z (r_material 1 7)) /\ length S = 1.
Proof.
  eexists. split; [reflexivity|]. split; [apply shipped_0d|]. cbn. split; [lra|]. split; [lra|]. split; [lra|].
  split; [constructor; [lra|constructor]|reflexivity].
Qed.
