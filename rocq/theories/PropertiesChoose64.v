(** * PropertiesChoose64.v - C26 in binary64: when choosing a species succeeds *)
From Coq Require Import ZArith List Bool Reals Lra Lia Floats.SpecFloat.
From Flocq Require Import Core BinarySingleNaN.
From Verif Require Import Num NumSF NumB ModelTypes ModelConsts ModelParticle ModelGeometry ModelMaterial ModelBca
  ProofsBase ProofsFloat SpecFloat64 ProofsRounding ProofsChoose64 ToyRun ToyRounding.
Import ListNotations.
Open Scope R_scope.

(** One species, any density: choosing it succeeds for every draw below one. *)
Theorem C26_one_species_is_always_chosen_partial :
  forall lm (mat : Material f64) density x y z (rng : Rng f64) n,
    g_get_concentrations (mat_geometry mat) x y z = Ok (@concentrations_of f64 (NumB lm) [density]) ->
    has_species mat 1 -> is_finite density = true -> 0 < B2R density ->
    is_finite (rng n) = true -> B2R (rng n) < 1 ->
    exists s, @choose f64 (NumB lm) mat x y z rng n = Ok (s, S n) /\ s_index s = 0%nat.
Proof.
  intros lm mat d x y z rng n Hg HS Fd Hd Fr Hr.
  assert (P0 : plain_number b0) by (split; [reflexivity|cbn; lra]).
  assert (Pd : plain_number d) by (split; [exact Fd|lra]).
  unfold concentrations_of, nsum in Hg. cbn [fold_left map] in Hg. pose proof (zero64 lm) as Z0. unfold NBc in Z0. rewrite Z0 in Hg.
  change (@nadd f64 (NumB lm)) with (Bplus (prec:=prec) (emax:=emax) mode_NE) in Hg.
  change (@ndiv f64 (NumB lm)) with (Bdiv (prec:=prec) (emax:=emax) mode_NE) in Hg.
  assert (E0 : fin (Bplus mode_NE b0 d) /\ B2R (Bplus mode_NE b0 d) = B2R d).
  { destruct (add_ok b0 d eq_refl Fd) as [F1 E1].
    - apply no_overflow with d. cbn [B2R]. rewrite Rplus_0_l, Rabs_pos_eq; lra.
    - split; [exact F1|]. rewrite E1. cbn [B2R]. rewrite Rplus_0_l. apply rd_id. }
  destruct E0 as [F0 E0]. set (s := Bplus mode_NE b0 d) in *.
  destruct (div_ok d s Fd) as [F1 E1]; [lra| |].
  { apply no_overflow_bpow with 0%Z; [lia|]. rewrite E0. unfold Rdiv. rewrite Rinv_r by lra. rewrite Rabs_R1. cbn. lra. }
  assert (E1' : B2R (Bdiv mode_NE d s) = 1).
  { rewrite E1, E0. unfold Rdiv. rewrite Rinv_r by lra. exact (rd_bpow 0 ltac:(lia)). }
  set (c := Bdiv mode_NE d s) in *.
  destruct (add_ok b0 c eq_refl F1) as [F2 E2].
  { apply no_overflow_bpow with 0%Z; [lia|]. rewrite E1'. cbn [B2R]. rewrite Rplus_0_l, Rabs_R1. cbn. lra. }
  destruct (choose_ok lm mat (rng n) x y z [c] (Bplus mode_NE b0 c) Hg) as (sp & Hsp & Hi).
  - discriminate.
  - exact HS.
  - reflexivity.
  - apply lt_fin; [exact Fr|exact F2|]. rewrite E2, E1'. cbn [B2R]. rewrite Rplus_0_l. change 1 with (bpow radix2 0). rewrite rd_bpow by lia. exact Hr.
  - exists sp. unfold choose, mbind, mrandom, mlift. unfold NBc in Hsp. rewrite Hsp. split; [reflexivity|]. cbn [length] in Hi. lia.
Qed.
Print Assumptions C26_one_species_is_always_chosen_partial.

(** Any number of species (up to a million): choosing succeeds for every draw
    below 1 - (number of species + 1) 2^-52. *)
Theorem C26_choosing_fails_only_next_to_one_partial :
  forall lm (mat : Material f64) densities x y z (rng : Rng f64) n,
    g_get_concentrations (mat_geometry mat) x y z = Ok (@concentrations_of f64 (NumB lm) densities) ->
    has_species mat (length densities) -> INR (length densities) <= bpow radix2 20 ->
    Forall plain_number densities ->
    is_finite (@nsum f64 (NumB lm) densities) = true -> 0 < B2R (@nsum f64 (NumB lm) densities) ->
    is_finite (rng n) = true -> B2R (rng n) < 1 - (INR (length densities) + 1) * bpow radix2 (-52) ->
    exists s, @choose f64 (NumB lm) mat x y z rng n = Ok (s, S n) /\ (s_index s < length densities)%nat.
Proof.
  intros lm mat ds x y z rng n Hg HS Hn Hd Fs Hs Fr Hr. unfold concentrations_of, nsum in *.
  pose proof (zero64 lm) as Z0. unfold NBc in Z0. rewrite Z0 in *.
  change (@nadd f64 (NumB lm)) with (Bplus (prec:=prec) (emax:=emax) mode_NE) in *.
  change (@ndiv f64 (NumB lm)) with (Bdiv (prec:=prec) (emax:=emax) mode_NE) in *.
  destruct (shares_sum ds Hd Hn) as [HC HT].
  - split; [exact Fs|apply Rlt_le; exact Hs].
  - exact Hs.
  - set (cs := map (fun d => Bdiv mode_NE d (fold_left (Bplus mode_NE) ds b0)) ds) in *.
    assert (Len : @length f64 cs = length ds) by apply map_length.
    destruct (choose_ok lm mat (rng n) x y z cs (fold_left (Bplus mode_NE) cs b0) Hg) as (sp & Hsp & Hi).
    + intro E. rewrite E in Len. destruct ds; [|discriminate Len]. cbn in Hs. lra.
    + rewrite Len. exact HS.
    + reflexivity.
    + destruct HT as [->|[Ft Ht]].
      * destruct (rng n) as [s|[]| |[] m e]; try discriminate Fr; reflexivity.
      * apply lt_fin; [exact Fr|exact Ft|]. lra.
    + exists sp. unfold choose, mbind, mrandom, mlift. unfold NBc in Hsp. rewrite Hsp. split; [reflexivity|]. rewrite Len in Hi. exact Hi.
Qed.
Print Assumptions C26_choosing_fails_only_next_to_one_partial.

#[local] Existing Instance toy64.
(** Non-vacuity: the helium/copper target of C105, whose mesh is built by Mesh0D::new; and the
    densities 9, 6, 3 of the refutation, where draws below 1 - 4*2^-52 are safe. *)
Example C26_copper_is_always_chosen : exists mesh, mesh0d_new copper64_input = Ok mesh /\
  forall x y z (rng : Rng f64) n, is_finite (rng n) = true -> B2R (rng n) < 1 ->
    exists s, choose (copper64 mesh) x y z rng n = Ok (s, S n) /\ s_index s = 0%nat.
Proof.
  unfold mesh0d_new. cbn [m0i_length_unit copper64_input length_unit_value bind].
  set (d := (nlit 85 (-3) /! npowi cANGSTROM 3)%num).
  eexists. split; [reflexivity|]. intros x y z rng n Fr Hr.
  eapply (C26_one_species_is_always_chosen_partial clamped _ d); try eassumption.
  - reflexivity.
  - unfold has_species. repeat constructor.
  - unfold d. vm_compute. reflexivity.
  - assert (L : Bltb b0 d = true) by (vm_compute; reflexivity).
    assert (Fd : is_finite d = true) by (vm_compute; reflexivity). exact (proj1 (lt_fin b0 d eq_refl Fd) L).
Qed.
Example C26_nine_six_three : let ds := [nZ 9; nZ 6; nZ 3] : list f64 in
  INR (length ds) <= bpow radix2 20 /\ Forall plain_number ds /\ is_finite (nsum ds) = true /\ 0 < B2R (nsum ds).
Proof.
  cbv zeta. split; [cbn; lra|]. split; [apply plains64_ok; vm_compute; reflexivity|]. split; [vm_compute; reflexivity|].
  set (s := nsum _). assert (L : Bltb b0 s = true) by (vm_compute; reflexivity).
  assert (Fs : is_finite s = true) by (vm_compute; reflexivity). exact (proj1 (lt_fin b0 s eq_refl Fs) L).
Qed.
