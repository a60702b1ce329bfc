(** * ToyRounding.v - helium and copper on copper in binary64 with valid data only. *)
From Coq Require Import ZArith List Bool Reals Lra Floats.SpecFloat.
From Flocq Require Import Core BinarySingleNaN.
From Verif Require Import Num NumSF NumB ToyLibm ModelTypes ModelConsts ModelParticle ModelGeometry ModelMaterial ModelBca
  ToyRun ProofsBase ProofsFloat SpecFloat64.
Import ListNotations.
Open Scope Z_scope.
Open Scope num_scope.

(** the power-series library on doubles; sines are cut at -1 and 1, and squares are products *)
Definition series_on_doubles : LibmB := libm_on_doubles series_libm.
Definition one64 : f64 := of_sf (sf_lit 1 0).
Definition clamped : LibmB := {|
  lb_exp := lb_exp series_on_doubles; lb_ln := lb_ln series_on_doubles;
  lb_sin := fun x => let y := lb_sin series_on_doubles x in if Bleb (Babs y) one64 then y else if is_nan y then B754_nan else if Bltb y one64 then Bopp one64 else one64;
  lb_cos := lb_cos series_on_doubles; lb_asin := lb_asin series_on_doubles; lb_acos := lb_acos series_on_doubles;
  lb_atan2 := lb_atan2 series_on_doubles; lb_powf := lb_powf series_on_doubles;
  lb_powi := fun x n => if n =? 2 then Bmult mode_NE x x else lb_powi series_on_doubles x n |}.
Lemma one64_ok : is_finite one64 = true /\ B2R one64 = 1%R.
Proof.
  assert (E : B2SF one64 = S754_finite false 4503599627370496 (-52)) by (unfold one64; rewrite of_sf_valid; reflexivity).
  split; [rewrite <- is_finite_SF_B2SF, E; reflexivity|]. rewrite <- SF2R_B2SF, E. unfold SF2R, F2R. cbn. lra.
Qed.
Lemma clamped_sane : sane_libm clamped.
Proof.
  split; [|reflexivity]. intro x. cbn [lb_sin clamped]. generalize (lb_sin series_on_doubles x). intro y.
  destruct one64_ok as [F1 E1].
  destruct (Bleb (Babs y) one64) eqn:E; [right|].
  2: { destruct (is_nan y); [left; reflexivity|right]. destruct (Bltb y one64).
       - rewrite is_finite_Bopp, B2R_Bopp, E1. split; [exact F1|]. rewrite Rabs_Ropp, Rabs_R1. lra.
       - rewrite E1. split; [exact F1|]. rewrite Rabs_R1. lra. }
  assert (Fy : is_finite y = true).
  { generalize dependent one64. intros o F1 _ E. destruct y as [s|s| |s m e]; try reflexivity; destruct o; try discriminate F1; try (destruct s; discriminate E); discriminate E. }
  split; [exact Fy|]. rewrite <- B2R_Babs, <- E1. apply le_fin; [rewrite is_finite_Babs; exact Fy|exact F1|exact E].
Qed.

Lemma from_input_fields {F} {NF : Num F} (i : ParticleInput F) o ion : from_input i o = Ok ion ->
  p_m ion = pi_m i /\ p_Es ion = pi_Es i /\ p_E ion = pi_E i.
Proof.
  unfold from_input. intro H. apply bind_ok in H. destruct H as (u & _ & H). apply bind_ok in H. destruct H as (u' & _ & H).
  assert (I : forall x y : Particle F, Ok x = Ok y -> x = y) by congruence. apply I in H. subst ion. repeat split.
Qed.
#[local] Instance toy64 : Num f64 := NumB clamped.
Definition options64 : Options f64 := {|
  o_track_trajectories := true; o_track_recoils := true; o_track_recoil_trajectories := false;
  o_write_buffer_size := 8%nat; o_weak_collision_order := 0%nat; o_suppress_deep_recoils := false;
  o_high_energy_free_flight_paths := false; o_electronic_stopping_mode := LOW_ENERGY_NONLOCAL;
  o_mean_free_path_model := LIQUID;
  o_interaction_potential := [[KR_C]];
  o_scattering_integral := [[MENDENHALL_WELLER]];
  o_root_finder := [[DEFAULTNEWTON]];
  o_num_threads := 1%nat; o_num_chunks := 1%nat; o_use_hdf5 := false;
  o_track_displacements := false; o_track_energy_losses := true |}.
Definition copper64_input : Mesh0DInput f64 :=
  {| m0i_length_unit := LU_ANGSTROM; m0i_densities := [nlit 85 (-3)]; m0i_ck := nZ 1 |}.
Definition copper64 (mesh : Mesh0D f64) : Material f64 := {|
  mat_m := [nlit 6355 (-2) *! cAMU]; mat_Z := [nZ 29]; mat_Eb := [nZ 0]; mat_Es := [nlit 352 (-2) *! cEV];
  mat_Ec := [nZ 3 *! cEV]; mat_Ed := [nZ 0]; mat_interaction_index := [0%nat];
  mat_geometry := mesh0d_geometry mesh;
  mat_surface_binding_model := ISOTROPIC SBC_INDIVIDUAL; mat_bulk_binding_model := BBM_AVERAGE |}.
(** helium of 60 eV, 10 angstrom deep, at (0.6, 0.8) *)
Definition helium64 : ParticleInput f64 := {|
  pi_m := nZ 4 *! cAMU; pi_Z := nZ 2; pi_E := nZ 60 *! cEV; pi_Ec := nZ 3 *! cEV; pi_Es := nZ 0;
  pi_x := nZ 10 *! cANGSTROM; pi_y := nZ 0; pi_z := nZ 0; pi_ux := nlit 6 (-1); pi_uy := nlit 8 (-1); pi_uz := nZ 0;
  pi_interaction_index := 0%nat; pi_weight := nZ 1; pi_tag := 0 |}.
Definition rng64 : Rng f64 := fun k => nth k [nlit 5 (-1); nlit 1 (-2)] (nlit 5 (-1)).
Definition run64 (i : ParticleInput f64) (rng : Rng f64) :=
  let! mesh := mesh0d_new copper64_input in
  let! ion := from_input i options64 in
  Ok (mesh, ion, single_ion_bca None (copper64 mesh) options64 200 ion rng 0%nat).
Definition outcome64 : Type := Mesh0D f64 * Particle f64 * Res (list (Particle f64) * nat).
Lemma two_inv {A B C} (a : Res A) (b : Res B) (f : A -> B -> C) (test : A * B * C -> bool) :
  passes test (let! x := a in let! y := b in Ok (x, y, f x y)) = true ->
  exists x y, a = Ok x /\ b = Ok y /\ test (x, y, f x y) = true.
Proof. destruct a as [x| |]; try discriminate. cbn [bind]. destruct b as [y| |]; try discriminate. cbn [bind passes]. eauto. Qed.
Lemma run64_inv i rng (test : outcome64 -> bool) : passes test (run64 i rng) = true ->
  exists mesh ion, mesh0d_new copper64_input = Ok mesh /\ from_input i options64 = Ok ion /\
    test (mesh, ion, single_ion_bca None (copper64 mesh) options64 200 ion rng 0%nat) = true.
Proof. exact (two_inv _ _ (fun mesh ion => single_ion_bca None (copper64 mesh) options64 200 ion rng 0%nat) test). Qed.

Definition plain64 (x : f64) : bool := Bleb b0 x && is_finite x.
(** the run ends with two particles at least; the concentrations are proper numbers *)
Definition recoils64 (r : outcome64) : bool :=
  match r with
  | (mesh, ion, Ok (out, _)) => Nat.leb 2 (length out) && forallb plain64 (m0_concentrations mesh)
  | _ => false
  end.
Lemma run64_recoils : passes recoils64 (run64 helium64 rng64) = true.
Proof. vm_compute. reflexivity. Qed.

(** copper of 2 MeV, its mass 63.550000000000004 u, 10 angstrom deep, at (0.6, 0.8); its first partner is straight ahead *)
Definition twin64 : ParticleInput f64 := {|
  pi_m := nlit 63550000000000004 (-15) *! cAMU; pi_Z := nZ 29; pi_E := nlit 2 6 *! cEV; pi_Ec := nZ 3 *! cEV; pi_Es := nlit 352 (-2) *! cEV;
  pi_x := nZ 10 *! cANGSTROM; pi_y := nZ 0; pi_z := nZ 0; pi_ux := nlit 6 (-1); pi_uy := nlit 8 (-1); pi_uz := nZ 0;
  pi_interaction_index := 0%nat; pi_weight := nZ 1; pi_tag := 0 |}.
Definition head_on64 : Rng f64 := fun k => nth k [nlit 5 (-1); nZ 0] (nlit 5 (-1)).
Definition asserts64 (r : outcome64) : bool :=
  match r with
  | (mesh, ion, Panic AssertFail) => forallb plain64 (m0_concentrations mesh) && Bltb b0 (p_E ion)
  | _ => false
  end.
Lemma twin64_asserts : passes asserts64 (run64 twin64 head_on64) = true.
Proof. vm_compute. reflexivity. Qed.

(** what the tests mean *)
Lemma plain64_ok x : plain64 x = true -> plain_number x.
Proof.
  unfold plain64. intro H. apply andb_prop in H. destruct H as [H F1]. split; [exact F1|].
  destruct (nn_cases x H) as [->|[_ L]]; [discriminate F1|exact L].
Qed.
Lemma plains64_ok l : forallb plain64 l = true -> Forall plain_number l.
Proof. intro H. apply Forall_forall. intros x Hx. apply plain64_ok. rewrite forallb_forall in H. auto. Qed.
Lemma recoils64_inv mesh ion r : recoils64 (mesh, ion, r) = true ->
  Forall plain_number (m0_concentrations mesh) /\ exists out n, r = Ok (out, n) /\ (2 <= length out)%nat.
Proof.
  unfold recoils64. destruct r as [[out n]| |]; try discriminate. intro H. apply andb_prop in H. destruct H as [H1 H2].
  split; [apply plains64_ok, H2|]. exists out, n. split; [reflexivity|]. apply PeanoNat.Nat.leb_le, H1.
Qed.
Lemma asserts64_inv mesh ion r : asserts64 (mesh, ion, r) = true ->
  Forall plain_number (m0_concentrations mesh) /\ Bltb b0 (p_E ion) = true /\ r = Panic AssertFail.
Proof.
  unfold asserts64. destruct r as [[out n]|[]|]; try discriminate. intro H. apply andb_prop in H. destruct H as [H1 H2].
  split; [apply plains64_ok, H1|]. split; [exact H2|reflexivity].
Qed.
(** the constants *)
Definition cu_mass : f64 := nlit 6355 (-2) *! cAMU.
Definition he_mass : f64 := nZ 4 *! cAMU.
Lemma cu_bits : B2SF cu_mass = S754_finite false 4596360322413192 (-135).
Proof. vm_compute. reflexivity. Qed.
Lemma he_bits : B2SF he_mass = S754_finite false 4628907327056559 (-139).
Proof. vm_compute. reflexivity. Qed.
Lemma pow_big : (bpow radix2 (-400) <= bpow radix2 (-139))%R /\ (bpow radix2 (-135) <= 1)%R /\ (2 ^ 60 <= bpow radix2 400)%R /\
  bpow radix2 (-135) = (16 * bpow radix2 (-139))%R /\ (0 < bpow radix2 (-139))%R.
Proof.
  split; [apply bpow_le; discriminate|]. split; [change 1%R with (bpow radix2 0); apply bpow_le; discriminate|].
  split.
  { replace (2 ^ 60)%R with (bpow radix2 60) by (cbn; lra). apply bpow_le; discriminate. }
  split; [|apply bpow_gt_0].
  change (-135)%Z with (4 + -139)%Z. rewrite bpow_plus. change (bpow radix2 4) with 16%R. reflexivity.
Qed.
Lemma cu_value : is_finite cu_mass = true /\ B2R cu_mass = (4596360322413192 * bpow radix2 (-135))%R.
Proof.
  split; [rewrite <- is_finite_SF_B2SF, cu_bits; reflexivity|]. rewrite <- SF2R_B2SF, cu_bits. reflexivity.
Qed.
Lemma he_value : is_finite he_mass = true /\ B2R he_mass = (4628907327056559 * bpow radix2 (-139))%R.
Proof.
  split; [rewrite <- is_finite_SF_B2SF, he_bits; reflexivity|]. rewrite <- SF2R_B2SF, he_bits. reflexivity.
Qed.
Lemma masses64 : plain_mass cu_mass /\ plain_mass he_mass /\ same_or_apart he_mass cu_mass /\ same_or_apart cu_mass cu_mass.
Proof.
  destruct cu_value as [Fc Ec], he_value as [Fh Eh]. destruct pow_big as (P1 & P2 & P3 & P4 & P5).
  unfold plain_mass, same_or_apart. rewrite Ec, Eh, P4 in *. set (u := bpow radix2 (-139)) in *.
  assert (P3' : (1152921504606846976 <= bpow radix2 400)%R) by lra. clear P3.
  split; [split; [exact Fc|]; lra|]. split; [split; [exact Fh|]; lra|]. split; [right|left; reflexivity].
  change (bpow radix2 (-25)) with (/ 33554432)%R. rewrite Rabs_minus_sym, Rabs_pos_eq; lra.
Qed.
Lemma energies64 : plain_number (nlit 352 (-2) *! cEV) /\ plain_number (nZ 3 *! cEV) /\ plain_number (nZ 0).
Proof. repeat split; try (apply plain64_ok; vm_compute; reflexivity); reflexivity. Qed.
Definition twin_mass : f64 := nlit 63550000000000004 (-15) *! cAMU.
Lemma twin_bits : B2SF twin_mass = S754_finite false 4596360322413193 (-135).
Proof. vm_compute. reflexivity. Qed.
Lemma twin_plain : plain_mass twin_mass.
Proof.
  assert (E : B2R twin_mass = (4596360322413193 * bpow radix2 (-135))%R) by (rewrite <- SF2R_B2SF, twin_bits; reflexivity).
  destruct pow_big as (P1 & P2 & P3 & P4 & P5).
  split; [rewrite <- is_finite_SF_B2SF, twin_bits; reflexivity|]. rewrite E, P4 in *. set (u := bpow radix2 (-139)) in *.
  assert (P3' : (1152921504606846976 <= bpow radix2 400)%R) by lra. clear P3. lra.
Qed.
