(** * PropertiesSampling64.v - C109: sampling in double precision *)
From Coq Require Import ZArith List Bool Reals Lra Lia Floats.SpecFloat.
From Flocq Require Import Core BinarySingleNaN.
From Verif Require Import Num NumSF NumB ToyLibm ModelTypes ModelConsts ModelParticle ModelGeometry ModelMaterial ModelBca
  Spec SpecFloat64 SpecSampling64 ProofsBase ProofsFloat ProofsSampling ProofsSampling64 ToyRun ToyLoss ToyFlight ToyRounding ToyInfinity.
Import ListNotations.
Open Scope R_scope.

(** Without high-energy free flight paths every collision geometry drawn with
    doubles in [0, 1) is usable, whatever the math library: azimuths between 0
    and 2 pi, impact parameters in their annuli (so those of later annuli are
    not smaller), path lengths finite, not negative and not beyond the mean free
    path.  In a gaseous target the path length is finite provided no random
    number is 0 and the library's logarithm is sane. *)
Theorem C109_sampling_in_double_precision_partial :
  forall lm (mat : Material f64) options p mfp (rng : Rng f64) n p' bcgs n',
    o_high_energy_free_flight_paths options = false ->
    @mat_mfp f64 (NumB lm) mat (vx (p_pos p)) (vy (p_pos p)) (vz (p_pos p)) = Ok mfp ->
    plain_number mfp -> B2R mfp <= bpow radix2 900 -> (Z.of_nat (S (o_weak_collision_order options)) <= 2 ^ 53)%Z ->
    (forall k, random_double (rng k)) ->
    (o_mean_free_path_model options = GASEOUS -> sane_ln lm /\ forall k, 0 < B2R (rng k)) ->
    @determine_mfp_phi_impact_parameter f64 (NumB lm) mat options p rng n = Ok ((p', bcgs), n') ->
    length bcgs = S (o_weak_collision_order options) /\
    (forall k g, nth_error bcgs k = Some g ->
       plain_number (bcg_phi_azimuthal g) /\ B2R (bcg_phi_azimuthal g) <= B2R (@full_turn lm) /\
       plain_number (bcg_impact_parameter g) /\
       B2R (@radius lm mfp k) <= B2R (bcg_impact_parameter g) <= B2R (@radius lm mfp (S k)) /\
       plain_number (bcg_mfp g) /\
       (o_mean_free_path_model options <> GASEOUS -> B2R (bcg_mfp g) <= B2R mfp)) /\
    (forall j k g h, (j < k)%nat -> nth_error bcgs j = Some g -> nth_error bcgs k = Some h ->
       B2R (bcg_impact_parameter g) <= B2R (bcg_impact_parameter h)).
Proof.
  intros lm mat options p mfp rng n p' bcgs n' Hh Hm Hp Hb Hw Hr Hg H.
  destruct (@determine_value f64 (NumB lm) mat options p rng n mfp Hh Hm) as (n0 & E & _). rewrite E in H.
  apply ok_geometries in H. subst bcgs. clear E. set (w := S (o_weak_collision_order options)) in *.
  rewrite map_length, seq_length. split; [reflexivity|].
  assert (N : forall k g, nth_error (map (fun k => mkBCG (@nmul f64 (NumB lm) (@nmul f64 (NumB lm) (@nZ f64 (NumB lm) 2) (@npi f64 (NumB lm))) (rng (n + k)%nat))
                             (@nmul f64 (NumB lm) (@ndiv f64 (NumB lm) mfp (@cSQRTPI f64 (NumB lm))) (@nsqrt f64 (NumB lm) (@nadd f64 (NumB lm) (rng (n + w + k)%nat) (@nnat f64 (NumB lm) k))))
                             (@sampled_path f64 (NumB lm) options (p_first_step p) mfp rng (n + w + w)%nat)) (seq 0 w)) k = Some g ->
     (k < w)%nat /\ g = mkBCG (@nmul f64 (NumB lm) (@nmul f64 (NumB lm) (@nZ f64 (NumB lm) 2) (@npi f64 (NumB lm))) (rng (n + k)%nat))
                             (@nmul f64 (NumB lm) (@ndiv f64 (NumB lm) mfp (@cSQRTPI f64 (NumB lm))) (@nsqrt f64 (NumB lm) (@nadd f64 (NumB lm) (rng (n + w + k)%nat) (@nnat f64 (NumB lm) k))))
                             (@sampled_path f64 (NumB lm) options (p_first_step p) mfp rng (n + w + w)%nat)).
  { intros k g Hk. assert (L : (k < w)%nat).
    { assert (Q : nth_error (map (fun k => mkBCG (@nmul f64 (NumB lm) (@nmul f64 (NumB lm) (@nZ f64 (NumB lm) 2) (@npi f64 (NumB lm))) (rng (n + k)%nat))
                             (@nmul f64 (NumB lm) (@ndiv f64 (NumB lm) mfp (@cSQRTPI f64 (NumB lm))) (@nsqrt f64 (NumB lm) (@nadd f64 (NumB lm) (rng (n + w + k)%nat) (@nnat f64 (NumB lm) k))))
                             (@sampled_path f64 (NumB lm) options (p_first_step p) mfp rng (n + w + w)%nat)) (seq 0 w)) k <> None) by congruence.
      apply nth_error_Some in Q. rewrite map_length, seq_length in Q. exact Q. }
    split; [exact L|]. rewrite nth_error_map in Hk.
    assert (S0 : nth_error (seq 0 w) k = Some k).
    { rewrite (nth_error_nth' _ 0%nat) by (rewrite seq_length; exact L). rewrite seq_nth by exact L. reflexivity. }
    rewrite S0 in Hk. cbn [option_map] in Hk. congruence. }
  split.
  - intros k g Hk. apply N in Hk. destruct Hk as (L & ->). cbn [bcg_phi_azimuthal bcg_impact_parameter bcg_mfp].
    destruct (azimuth_ok lm _ (Hr (n + k)%nat)) as (A1 & A2).
    destruct (impact_ok lm mfp (rng (n + w + k)%nat) k Hp Hb ltac:(lia) (Hr _)) as (B1 & B2).
    destruct (path_ok lm options (p_first_step p) mfp rng (n + w + w)%nat Hp Hb Hr Hg) as (P1 & P2 & _).
    split; [exact A1|]. split; [exact A2|]. split; [exact B1|]. split; [exact B2|]. split; [exact P1|exact P2].
  - intros j k g h Hj Hg1 Hk. apply N in Hg1. apply N in Hk. destruct Hg1 as (L1 & ->), Hk as (L2 & ->). cbn [bcg_impact_parameter].
    destruct (impact_ok lm mfp (rng (n + w + k)%nat) k Hp Hb ltac:(lia) (Hr _)) as (_ & B1 & _).
    destruct (impact_ok lm mfp (rng (n + w + j)%nat) j Hp Hb ltac:(lia) (Hr _)) as (_ & _ & B2).
    eapply Rle_trans; [exact B2|]. eapply Rle_trans; [|exact B1]. apply (radius_mono lm mfp (S j) k Hp Hb); lia.
Qed.
Print Assumptions C109_sampling_in_double_precision_partial.
#[local] Existing Instance clamped_num.
Example C109_applies : exists mesh mfp p' bcgs n',
  mesh0d_new copper64_input = Ok mesh /\ mat_mfp (copper64 mesh) (nZ 0) (nZ 0) (nZ 0) = Ok mfp /\ plain_number mfp /\ B2R mfp <= bpow radix2 900 /\
  random_double (nlit 5 (-1)) /\ 
  exists p, vx (p_pos p) = nZ 0 /\ determine_mfp_phi_impact_parameter (copper64 mesh) (weak64 LIQUID) p (fun _ => nlit 5 (-1)) 0%nat = Ok ((p', bcgs), n').
Proof.
  destruct copper64_mfp as (mesh & mfp & H1 & H2 & H3 & H4).
  set (p := particle_new (nZ 1) (nZ 1) (nZ 1) (nZ 1) (nZ 0) (nZ 0) (nZ 0) (nZ 0) (nZ 0) (nZ 1) (nZ 0) (nZ 0) true false 0%nat : Particle f64).
  destruct (determine_value (copper64 mesh) (weak64 LIQUID) p (fun _ => nlit 5 (-1)) 0%nat mfp eq_refl (H2 _ _ _)) as (n0 & E & _).
  exists mesh, mfp. eexists _, _, n0. split; [exact H1|]. split; [apply H2|]. split; [exact H3|].
  split; [apply Rle_trans with 1; [exact H4|change 1 with (bpow radix2 0); apply bpow_le; lia]|]. split; [exact half64|].
  exists p. split; [reflexivity|exact E].
Qed.
#[local] Remove Hints clamped_num : typeclass_instances.

(** With the random number 0 - which [0, 1) contains - the path length in a
    gaseous target is infinite or NaN, for every math library with
    ln 0 = -infinity, every target and particle. *)
Theorem C109_refuted_random_number_zero :
  forall lm (mat : Material f64) options p mfp (rng : Rng f64) n p' bcgs n',
    (forall s, lb_ln lm (B754_zero s) = B754_infinity true) ->
    o_high_energy_free_flight_paths options = false -> o_mean_free_path_model options = GASEOUS -> p_first_step p = false ->
    @mat_mfp f64 (NumB lm) mat (vx (p_pos p)) (vy (p_pos p)) (vz (p_pos p)) = Ok mfp ->
    rng (n + 2 * S (o_weak_collision_order options))%nat = B754_zero false ->
    @determine_mfp_phi_impact_parameter f64 (NumB lm) mat options p rng n = Ok ((p', bcgs), n') ->
    bcgs <> [] /\ Forall (fun g => is_finite (bcg_mfp g) = false) bcgs.
Proof.
  intros lm mat options p mfp rng n p' bcgs n' Hl Hh Hg Hf Hm Hz H.
  destruct (@determine_value f64 (NumB lm) mat options p rng n mfp Hh Hm) as (n0 & E & _). rewrite E in H.
  apply ok_geometries in H. subst bcgs. clear E. set (w := S (o_weak_collision_order options)) in *. split.
  - unfold w. rewrite <- cons_seq. discriminate.
  - apply Forall_forall. intros g G. apply in_map_iff in G. destruct G as (k & <- & _). cbn [bcg_mfp].
    unfold sampled_path. cbv zeta. rewrite Hg, Hf. replace (n + w + w)%nat with (n + 2 * w)%nat by lia. rewrite Hz.
    change (@nneg f64 (NumB lm) (@nln f64 (NumB lm) (B754_zero false))) with (Bopp (lb_ln lm (B754_zero false)) : f64). rewrite Hl.
    destruct mfp as [s|s| |s m e Hb]; reflexivity.
Qed.
Print Assumptions C109_refuted_random_number_zero.

(** A complete run: 100 eV helium on gaseous copper is implanted at an infinite
    depth. *)
#[local] Existing Instance series_num.
Theorem C109_refuted_an_ion_implanted_at_infinity :
  exists mesh ion out n,
    mesh0d_new copper_input = Ok mesh /\ from_input slanted (plain_options LOW_ENERGY_NONLOCAL GASEOUS 0) = Ok ion /\
    single_ion_bca None (copper mesh) (plain_options LOW_ENERGY_NONLOCAL GASEOUS 0) 20 ion (draws zero_draws) 0%nat = Ok ([out], n) /\
    p_stopped out = true /\ vx (p_pos out) = S754_infinity false.
Proof.
  destruct (run_with_inv _ _ _ _ _ _ infinity_run) as (mesh & ion & out & n & Hm & Hi & Hr & Ht).
  apply at_infinity_inv in Ht. destruct Ht as (p & -> & H1 & H2). exists mesh, ion, p, n.
  split; [exact Hm|]. split; [exact Hi|]. split; [exact Hr|]. split; [exact H1|exact H2].
Qed.
#[local] Remove Hints series_num : typeclass_instances.
Print Assumptions C109_refuted_an_ion_implanted_at_infinity.
