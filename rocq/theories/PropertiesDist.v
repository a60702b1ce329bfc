(** * PropertiesDist.v - C112: sampling distributions *)
From Coq Require Import ZArith List Bool Lia Reals Lra.
From Verif Require Import Num NumR ModelTypes ModelConsts ModelParticle ModelGeometry ModelMaterial ModelBca.
From Verif Require Import Spec SpecR SpecShift SpecEnergy SpecPath SpecDist ProofsBase ProofsSampling ProofsMaterial ProofsInteractions ProofsRefute ToyR PropertiesPush PropertiesEnergy PropertiesPath.
Import ListNotations.
Open Scope R_scope.

Lemma cell_area N : 0 < N -> Rpower N (-2 / 3) = Rpower N (-1 / 3) * Rpower N (-1 / 3).
Proof. intros. rewrite <- Rpower_plus. f_equal. lra. Qed.
Lemma div_le_iff u a b : 0 < b -> (u * b <= a <-> u <= a / b).
Proof.
  intro Hb. split; intro H.
  - apply Rmult_le_reg_r with b; [exact Hb|]. unfold Rdiv. rewrite Rmult_assoc, Rinv_l by lra. lra.
  - apply (Rmult_le_compat_r b) in H; [|lra]. unfold Rdiv in H. rewrite Rmult_assoc, Rinv_l in H by lra. lra.
Qed.
Lemma sqrt_le_iff a r : 0 <= a -> 0 <= r -> (sqrt a <= r <-> a <= r * r).
Proof.
  intros Ha Hr. split; intro H.
  - rewrite <- (sqrt_sqrt a Ha). apply Rmult_le_compat; auto using sqrt_pos.
  - rewrite <- (sqrt_square r Hr). apply sqrt_le_1_alt. exact H.
Qed.
Lemma ln_tail u L s : 0 < u -> 0 < L -> (s < L * - ln u <-> u < exp (- s / L)).
Proof.
  intros Hu HL. split; intro H.
  - rewrite <- (exp_ln u Hu) at 1. apply exp_increasing. apply Rmult_lt_reg_r with L; [exact HL|]. unfold Rdiv. rewrite Rmult_assoc, Rinv_l by lra. lra.
  - rewrite <- (exp_ln u Hu) in H at 1. apply exp_lt_inv in H. apply (Rmult_lt_compat_r L) in H; [|exact HL]. unfold Rdiv in H. rewrite Rmult_assoc, Rinv_l in H by lra. lra.
Qed.

(** Without high-energy free flight paths, geometry by geometry: which random
    number decides what, and how.  No random number decides two things. *)
Theorem C112_collision_geometries_are_distributed_as_stated :
  forall (mat : Material R) (options : Options R) (p : Particle R) rng n p' bcgs n' densities,
    let N := Rsum densities in
    let mfp := Rpower N (-1 / 3) in
    let w := S (o_weak_collision_order options) in
    (forall i, 0 < rng i < 1) ->
    g_get_densities (mat_geometry mat) (vx (p_pos p)) (vy (p_pos p)) (vz (p_pos p)) = Ok densities -> 0 < N ->
    o_high_energy_free_flight_paths options = false ->
    determine_mfp_phi_impact_parameter mat options p rng n = Ok ((p', bcgs), n') ->
    length bcgs = w /\
    forall k b, nth_error bcgs k = Some b ->
      (forall a, bcg_phi_azimuthal b <= a <-> rng (n + k)%nat <= uniform_up_to (2 * PI) a) /\
      (forall r, 0 <= r -> (bcg_impact_parameter b <= r <-> rng (n + w + k)%nat <= ring_up_to N k r)) /\
      match o_mean_free_path_model options, p_first_step p with
      | GASEOUS, false => forall s, s < bcg_mfp b <-> rng (n + 2 * w)%nat < exponential_beyond mfp s
      | GASEOUS, true => forall s, s < bcg_mfp b <-> rng (S (n + 2 * w)) < exponential_beyond (mfp * rng (n + 2 * w)%nat) s
      | _, true => forall s, bcg_mfp b <= s <-> rng (n + 2 * w)%nat <= uniform_up_to mfp s
      | _, false => bcg_mfp b = mfp
      end.
Proof.
  intros mat options p rng n p' bcgs n' ds N mfp w Hr Hd HN Hh H.
  destruct (mat_mfp_R _ _ _ _ _ Hd HN) as (Hm & Hmp). fold N in Hm, Hmp. fold mfp in Hm, Hmp.
  destruct (determine_value mat options p rng n mfp Hh Hm) as (n0 & E & _). fold w in E. rewrite E in H.
  assert (I : forall (a c : Particle R) (b d : list (BinaryCollisionGeometry R)) (e f : nat), Ok ((a, b), e) = Ok ((c, d), f) -> b = d) by congruence.
  apply I in H. subst bcgs. clear I E. split; [rewrite map_length, seq_length; reflexivity|].
  intros k b Hb. rewrite nth_error_map in Hb.
  assert (Hk : (k < w)%nat).
  { destruct (Nat.lt_ge_cases k w) as [L|L]; [exact L|]. rewrite (proj2 (nth_error_None (seq 0 w) k)) in Hb by (rewrite seq_length; exact L). discriminate. }
  rewrite (nth_error_nth' (seq 0 w) 0%nat) in Hb by (rewrite seq_length; exact Hk). rewrite seq_nth in Hb by exact Hk. cbn [option_map Nat.add] in Hb.
  assert (Eb : forall x y : BinaryCollisionGeometry R, Some x = Some y -> x = y) by congruence. apply Eb in Hb. subst b.
  cbn [bcg_phi_azimuthal bcg_impact_parameter bcg_mfp]. rewrite nnat_R, cSQRTPI_R, !nZ_R. toR. change npi with PI.
  pose proof PI_RGT_0 as HP.
  split; [|split].
  - intro a. unfold uniform_up_to. rewrite <- div_le_iff by lra. rewrite (Rmult_comm _ (2 * PI)). reflexivity.
  - intros r Hr0. set (u := rng (n + w + k)%nat). pose proof (Hr (n + w + k)%nat) as Hu. fold u in Hu. pose proof (pos_INR k) as Hk0.
    assert (E : mfp / sqrt PI * sqrt (u + INR k) = sqrt (mfp * mfp / PI * (u + INR k))).
    { rewrite sqrt_mult_alt; [|apply Rle_mult_inv_pos; [nra|exact HP]]. f_equal. rewrite sqrt_div_alt by exact HP. rewrite sqrt_square by lra. reflexivity. }
    rewrite E. rewrite sqrt_le_iff; [|apply Rmult_le_pos; [apply Rle_mult_inv_pos; [nra|exact HP]|lra]|exact Hr0].
    unfold ring_up_to. rewrite cell_area by exact HN. fold mfp. rewrite <- div_le_iff by nra.
    assert (E2 : mfp * mfp / PI * (u + INR k) * PI = mfp * mfp * (u + INR k)) by (field; lra).
    split; intro L.
    + apply (Rmult_le_compat_r PI) in L; [|lra]. rewrite E2 in L. lra.
    + apply Rmult_le_reg_r with PI; [exact HP|]. rewrite E2. lra.
  - unfold sampled_path. replace (n + w + w)%nat with (n + 2 * w)%nat by lia. pose proof (Hr (n + 2 * w)%nat) as Hu. pose proof (Hr (S (n + 2 * w))) as Hu'.
    assert (Hf : forall s, mfp * rng (n + 2 * w)%nat <= s <-> rng (n + 2 * w)%nat <= uniform_up_to mfp s).
    { intro s. unfold uniform_up_to. rewrite <- div_le_iff by exact Hmp. rewrite (Rmult_comm mfp). reflexivity. }
    destruct (o_mean_free_path_model options), (p_first_step p); toR; try exact Hf; try reflexivity; intro s; apply ln_tail; try lra.
    apply Rmult_lt_0_compat; lra.
Qed.
Print Assumptions C112_collision_geometries_are_distributed_as_stated.

(** With high-energy free flight paths (after the first step): the impact
    parameter exceeds s with the probability that a cylinder of radius s around
    the path holds no atom - or, when the path is no longer than the usual one,
    is uniform over the usual disc. *)
Lemma impact_tail N L u s : 0 < N -> 0 < L -> 0 < u < 1 -> 0 <= s ->
  (s < impact_for N L * sqrt (- ln u) <-> u < empty_cylinder N L s).
Proof.
  intros HN HL Hu Hs. pose proof PI_RGT_0 as HP. unfold impact_for, empty_cylinder.
  assert (HD : 0 < N * PI * L) by (apply Rmult_lt_0_compat; [apply Rmult_lt_0_compat|]; lra).
  assert (Hl : 0 <= - ln u) by (assert (Q : ln u < ln 1) by (apply ln_increasing; lra); rewrite ln_1 in Q; lra).
  rewrite <- sqrt_mult_alt by (apply Rlt_le, Rdiv_lt_0_compat; lra).
  set (q := - ln u) in *. assert (Hq : 0 <= 1 / (N * PI * L) * q) by (apply Rmult_le_pos; [apply Rlt_le, Rdiv_lt_0_compat; lra|exact Hl]).
  assert (E : s < sqrt (1 / (N * PI * L) * q) <-> s * s < 1 / (N * PI * L) * q).
  { destruct (sqrt_le_iff _ s Hq Hs) as [A B]. split; intro H; apply Rnot_le_lt; intro K; [apply B in K|apply A in K]; lra. }
  rewrite E. clear E. assert (EQ : 1 / (N * PI * L) * q * (N * PI * L) = q) by (field; repeat split; apply Rgt_not_eq; lra).
  split; intro H.
  - apply (Rmult_lt_compat_r (N * PI * L)) in H; [|exact HD]. rewrite EQ in H. rewrite <- (exp_ln u) at 1 by lra. apply exp_increasing. unfold q in H. nra.
  - rewrite <- (exp_ln u) in H at 1 by lra. apply exp_lt_inv in H. apply Rmult_lt_reg_r with (N * PI * L); [exact HD|]. rewrite EQ. unfold q. nra.
Qed.
Theorem C112_free_flight_impact_parameters :
  forall (mat : Material R) (options : Options R) (p : Particle R) rng n p' bcgs n' dens conc S ck,
    let x := vx (p_pos p) in let y := vy (p_pos p) in let z := vz (p_pos p) in
    let N := Rsum dens in
    let mfp := Rpower N (-1 / 3) in
    let u := rng (n + Datatypes.S (o_weak_collision_order options))%nat in
    (forall i, 0 < rng i < 1) ->
    o_high_energy_free_flight_paths options = true -> o_mean_free_path_model options = LIQUID -> p_first_step p = false ->
    g_get_densities (mat_geometry mat) x y z = Ok dens -> g_get_concentrations (mat_geometry mat) x y z = Ok conc ->
    g_get_ck (mat_geometry mat) x y z = Ok ck -> electronic_stopping_cross_sections mat p INTERPOLATED = Ok S ->
    0 < N -> 0 < mean_over (mat_m mat) conc -> 0 < mean_over (mat_Z mat) conc ->
    0 < p_m p -> 0 < p_Z p -> 0 < p_E p -> 0 < p_Ec p -> 0 < continuous_loss S dens 1 * ck ->
    determine_mfp_phi_impact_parameter mat options p rng n = Ok ((p', bcgs), n') ->
    exists b, bcgs = [b] /\ mfp <= bcg_mfp b /\ forall s, 0 <= s ->
      (mfp < bcg_mfp b -> (s < bcg_impact_parameter b <-> u < empty_cylinder N (bcg_mfp b) s)) /\
      (bcg_mfp b = mfp -> (s < bcg_impact_parameter b <-> u < empty_cylinder N (bcg_mfp b) s) \/
                          (bcg_impact_parameter b <= s <-> u <= ring_up_to N 0 s)).
Proof.
  intros mat options p rng n p' bcgs n' dens conc S ck x y z N mfp u Hr Hh Hl Hf Hd Hcn Hck HS HN HM HZ2 Hm HZ HE HEc Hloss H.
  destruct (C93_free_flight_path _ _ _ _ _ _ _ _ _ _ _ _ Hh Hl Hd Hcn Hck HS HN HM HZ2 Hm HZ HE HEc Hloss H) as (b & Eb & Hpath & Himp).
  rewrite Hf in Hpath. fold N in Hpath, Himp. fold mfp in Hpath, Himp. rewrite Nat.add_0_r in Himp. fold u in Himp.
  set (path := Rmin _ _) in Hpath, Himp. assert (Hmp : 0 < mfp) by (unfold mfp, Rpower; apply exp_pos).
  exists b. split; [exact Eb|]. split; [rewrite Hpath; apply Rmax_l|]. pose proof PI_RGT_0 as HP.
  intros s Hs. pose proof (Hr (n + Datatypes.S (o_weak_collision_order options))%nat) as Hu. fold u in Hu.
  destruct (Rlt_dec path mfp) as [L|L].
  - split; [rewrite Hpath, Rmax_left by lra; lra|]. intros _. right. rewrite Himp.
    assert (E : impact_for N mfp * sqrt u = sqrt (mfp * mfp / PI * u)).
    { unfold impact_for. rewrite <- sqrt_mult_alt by (apply Rlt_le, Rdiv_lt_0_compat; [lra|apply Rmult_lt_0_compat; [apply Rmult_lt_0_compat|]; lra]). f_equal. f_equal.
      assert (EN : N * (mfp * mfp * mfp) = 1).
      { unfold mfp. rewrite <- !Rpower_plus. replace (-1 / 3 + -1 / 3 + -1 / 3) with (- (1)) by lra. rewrite Rpower_Ropp, Rpower_1 by exact HN. field. lra. }
      apply Rmult_eq_reg_r with (N * PI * mfp); [|apply Rgt_not_eq; apply Rmult_lt_0_compat; [apply Rmult_lt_0_compat|]; lra].
      replace (1 / (N * PI * mfp) * (N * PI * mfp)) with 1 by (field; repeat split; lra).
      replace (mfp * mfp / PI * (N * PI * mfp)) with (N * (mfp * mfp * mfp)) by (field; lra). symmetry. exact EN. }
    rewrite E. rewrite sqrt_le_iff; [|apply Rmult_le_pos; [apply Rle_mult_inv_pos; [nra|exact HP]|lra]|exact Hs].
    unfold ring_up_to. rewrite cell_area by exact HN. fold mfp. rewrite <- div_le_iff by nra. cbn [INR].
    assert (E2 : mfp * mfp / PI * u * PI = mfp * mfp * u) by (field; lra).
    split; intro K.
    + apply (Rmult_le_compat_r PI) in K; [|lra]. rewrite E2 in K. lra.
    + apply Rmult_le_reg_r with PI; [exact HP|]. rewrite E2. lra.
  - assert (EP : bcg_mfp b = path) by (rewrite Hpath; apply Rmax_right; lra).
    assert (T : s < bcg_impact_parameter b <-> u < empty_cylinder N (bcg_mfp b) s).
    { rewrite EP, Himp. apply impact_tail; lra. }
    split; [intros _; exact T|intros _; left; exact T].
Qed.
Print Assumptions C112_free_flight_impact_parameters.
Definition half_rng : Rng R := fun _ => 1 / 2.
Example C112_applies : exists p' bcgs n',
  (forall i, 0 < half_rng i < 1) /\
  g_get_densities (mat_geometry (r_material 1 1)) 5 0 0 = Ok [1] /\ 0 < Rsum [1] /\
  o_high_energy_free_flight_paths r_options = false /\
  determine_mfp_phi_impact_parameter (r_material 1 1) r_options r_deep half_rng 0%nat = Ok ((p', bcgs), n').
Proof.
  destruct (mat_mfp_R (r_material 1 1) 5 0 0 [1] eq_refl) as (Hm & _); [cbn; lra|].
  destruct (determine_value (r_material 1 1) r_options r_deep half_rng 0%nat _ eq_refl Hm) as (n' & H & _).
  eexists _, _, n'. split; [intros k; unfold half_rng; lra|]. split; [reflexivity|]. split; [cbn; lra|]. split; [reflexivity|exact H].
Qed.
Example C112_free_flight_applies : exists s b n',
  let ion := r_at 1 1 in let m := r_material 1 1 in
  g_get_densities (mat_geometry m) 5 0 0 = Ok [1] /\ g_get_concentrations (mat_geometry m) 5 0 0 = Ok [1] /\ g_get_ck (mat_geometry m) 5 0 0 = Ok 1 /\
  electronic_stopping_cross_sections m ion INTERPOLATED = Ok [s] /\
  0 < Rsum [1] /\ 0 < mean_over (mat_m m) [1] /\ 0 < mean_over (mat_Z m) [1] /\
  0 < p_m ion /\ 0 < p_Z ion /\ 0 < p_E ion /\ 0 < p_Ec ion /\ p_first_step ion = false /\ 0 < continuous_loss [s] [1] 1 /\
  determine_mfp_phi_impact_parameter m fly_options ion half_rng 0%nat = Ok ((ion, [b]), n') /\
  Rpower (Rsum [1]) (-1 / 3) < bcg_mfp b.
Proof.
  destruct fly_S as (s & HS & Hs).
  assert (Hex : exists b n', determine_mfp_phi_impact_parameter (r_material 1 1) fly_options (r_at 1 1) half_rng 0%nat = Ok ((r_at 1 1, [b]), n')).
  { unfold determine_mfp_phi_impact_parameter.
    change (vx (p_pos (r_at 1 1))) with 5. change (vy (p_pos (r_at 1 1))) with 0. change (vz (p_pos (r_at 1 1))) with 0.
    change (o_high_energy_free_flight_paths fly_options) with true. change (o_mean_free_path_model fly_options) with (LIQUID : MeanFreePathModel R).
    change (o_weak_collision_order fly_options) with 0%nat.
    destruct (mat_mfp_R (r_material 1 1) 5 0 0 [1] eq_refl) as (Hmf & _); [cbn; lra|].
    unfold mbind, mlift, mret, mrandoms, mrandom, mbind, mret, first_step_path, mret. rewrite Hmf. cbv beta iota.
    change (p_first_step (r_at 1 1)) with false. rewrite HS.
    cbn [map idx nth_error average_mass average_Z electronic_stopping_correction_factor total_number_density number_densities r_material mat_geometry mesh0d_geometry g_get_densities g_get_concentrations g_get_ck bind]. cbv beta iota zeta.
    match goal with |- context [if nlt ?a ?b then _ else _] => destruct (nlt a b) end; match goal with |- exists b n', Ok ((_, [?u]), ?v) = _ => exists u, v end; reflexivity. }
  destruct Hex as (b & n' & Hex). exists s, b, n'. cbv zeta.
  assert (E1 : Rsum [1] = 1) by (cbn; ring). assert (E2 : mean_over [2] [1] = 2) by (cbn; ring). assert (E3 : mean_over [1] [1] = 1) by (cbn; ring).
  assert (E4 : continuous_loss [s] [1] 1 = s) by (unfold continuous_loss; cbn [combine map fold_right fst snd]; ring).
  split; [reflexivity|]. split; [reflexivity|]. split; [reflexivity|]. split; [exact HS|].
  change (mat_m (r_material 1 1)) with [2]. change (mat_Z (r_material 1 1)) with [1]. rewrite E1, E2, E3, E4.
  change (p_m (r_at 1 1)) with 1. change (p_Z (r_at 1 1)) with 1. change (p_E (r_at 1 1)) with 1. change (p_Ec (r_at 1 1)) with 1.
  do 7 (split; [lra|]). split; [reflexivity|]. split; [lra|]. split; [exact Hex|].
  destruct (C93_free_flight_path (r_material 1 1) fly_options (r_at 1 1) half_rng 0%nat (r_at 1 1) [b] n' [1] [1] [s] 1) as (b' & Eb & Hp & _); try reflexivity; try exact HS.
  - rewrite E1. lra.
  - change (mat_m (r_material 1 1)) with [2]. rewrite E2. lra.
  - change (mat_Z (r_material 1 1)) with [1]. rewrite E3. lra.
  - cbn. lra.
  - cbn. lra.
  - cbn. lra.
  - cbn. lra.
  - rewrite E4. lra.
  - exact Hex.
  - injection Eb as <-. rewrite Hp. change (p_first_step (r_at 1 1)) with false. cbv iota.
    change (mat_m (r_material 1 1)) with [2]. change (mat_Z (r_material 1 1)) with [1]. rewrite E1, E2, E3, E4.
    change (p_m (r_at 1 1)) with 1. change (p_Z (r_at 1 1)) with 1. change (p_E (r_at 1 1)) with 1. change (p_Ec (r_at 1 1)) with 1.
    rewrite Rpower_one. apply Rlt_le_trans with (2 := Rmax_r _ _). apply Rmin_glb_lt; [exact fly_far|].
    apply Rmult_lt_reg_r with (s * 1); [lra|]. replace (5 / 100 * 1 / (s * 1) * (s * 1)) with (5 / 100) by (field; lra). lra.
Qed.

