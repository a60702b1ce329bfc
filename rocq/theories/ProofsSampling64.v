(** * ProofsSampling64.v - C109: sampling in double precision *)
From Coq Require Import ZArith List Bool Reals Lra Lia Floats.SpecFloat.
From Flocq Require Import Core BinarySingleNaN.
From Verif Require Import Num NumSF NumB ModelTypes ModelConsts ModelParticle ModelGeometry ModelMaterial ModelBca SpecFloat64 SpecSampling64
  ProofsBase ProofsFloat ProofsSampling.
Import ListNotations.
Open Scope R_scope.

Lemma sqrt_ok (x : f64) : fin x -> 0 <= B2R x -> fin (Bsqrt mode_NE x) /\ B2R (Bsqrt mode_NE x) = rd (sqrt (B2R x)).
Proof.
  intros Hx H. destruct (Bsqrt_correct prec emax _ _ mode_NE x) as (K1 & K2 & _). split; [|exact K1].
  rewrite K2. destruct x as [s|s| |[] m e Hb]; try reflexivity; try discriminate.
  exfalso. change (0 <= IZR (Zneg m) * bpow radix2 e) in H.
  assert (IZR (Zneg m) < 0) by (apply IZR_lt; reflexivity). pose proof (bpow_gt_0 radix2 e). nra.
Qed.
(** integers up to 2^53 are doubles *)
Lemma rd_IZR (m : Z) : (0 <= m <= 2 ^ 53)%Z -> rd (IZR m) = IZR m.
Proof.
  intros H. apply round_generic; [apply valid_rnd_round_mode|].
  destruct (Z.eq_dec m (2 ^ 53)) as [->|Hn].
  - replace (IZR (2 ^ 53)) with (bpow radix2 53) by (cbn; lra). apply generic_format_bpow. unfold SpecFloat.fexp, SpecFloat.emin, prec, emax. lia.
  - change fmt with (FLT_exp (-1074) 53). apply generic_format_FLT. exists (Float radix2 m 0).
    + unfold F2R. cbn. lra.
    + cbn [Fnum]. rewrite Z.abs_eq by lia. change (radix2 ^ 53)%Z with (2 ^ 53)%Z. lia.
    + cbn. lia.
Qed.
Lemma of_lit (m : Z) : B2SF (of_sf (sf_lit m 0)) = sf_lit m 0 -> (0 <= m <= 2 ^ 53)%Z ->
  fin (of_sf (sf_lit m 0)) /\ B2R (of_sf (sf_lit m 0)) = IZR m.
Proof.
  intros HB H.
  assert (E : sf_lit m 0 = B2SF (binary_normalize prec emax prec_pos prec_small mode_NE m 0 false)).
  { unfold sf_lit. rewrite <- binary_normalize_equiv. f_equal. change (10 ^ 0)%Z with 1%Z. lia. }
  assert (E2 : of_sf (sf_lit m 0) = binary_normalize prec emax prec_pos prec_small mode_NE m 0 false).
  { apply B2SF_inj. rewrite HB, E. reflexivity. }
  rewrite E2. pose proof (binary_normalize_correct prec emax prec_pos prec_small mode_NE m 0 false) as K.
  assert (V : F2R (Float radix2 m 0) = IZR m) by (unfold F2R; cbn; lra). rewrite V in K.
  pose proof (rd_IZR m H) as Q. unfold rd in Q. cbv zeta in K. rewrite Q in K. rewrite Rlt_bool_true in K.
  - destruct K as (K1 & K2 & _). auto.
  - rewrite <- abs_IZR. apply Rle_lt_trans with (IZR (2 ^ 53)); [apply IZR_le; lia|].
    replace (IZR (2 ^ 53)) with (bpow radix2 53) by (cbn; lra). apply bpow_lt. reflexivity.
Qed.
Lemma of_sf_lit (m : Z) : B2SF (of_sf (sf_lit m 0)) = sf_lit m 0.
Proof.
  apply of_sf_valid. assert (E : sf_lit m 0 = B2SF (binary_normalize prec emax prec_pos prec_small mode_NE m 0 false)).
  { unfold sf_lit. rewrite <- binary_normalize_equiv. f_equal. change (10 ^ 0)%Z with 1%Z. lia. }
  rewrite E. apply valid_binary_B2SF.
Qed.

Section With.
  Context (lm : LibmB).
  #[local] Instance NB : Num f64 := NumB lm.
Lemma nnat_ok k : (Z.of_nat k <= 2 ^ 53)%Z -> fin (nnat k : f64) /\ B2R (nnat k : f64) = INR k.
Proof.
  intros H. rewrite INR_IZR_INZ. apply (of_lit (Z.of_nat k)); [apply of_sf_lit|lia].
Qed.
Lemma sqrtpi_bits : B2SF (cSQRTPI : f64) = S754_finite false 7982422502469483 (-52).
Proof. vm_compute. reflexivity. Qed.
Lemma sqrtpi_ok : fin (cSQRTPI : f64) /\ 1 <= B2R (cSQRTPI : f64) <= 2.
Proof.
  split; [rewrite <- is_finite_SF_B2SF, sqrtpi_bits; reflexivity|]. rewrite <- SF2R_B2SF, sqrtpi_bits.
  unfold SF2R, F2R. cbn [Fnum Fexp cond_Zopp]. change (bpow radix2 (-52)) with (/ 4503599627370496). lra.
Qed.
Lemma two_pi_bits : B2SF (nmul (nZ 2) npi : f64) = S754_finite false 7074237752028440 (-50).
Proof. vm_compute. reflexivity. Qed.
Lemma two_pi_ok : fin (nmul (nZ 2) npi : f64) /\ 6 <= B2R (nmul (nZ 2) npi : f64) <= 7.
Proof.
  split; [rewrite <- is_finite_SF_B2SF, two_pi_bits; reflexivity|]. rewrite <- SF2R_B2SF, two_pi_bits.
  unfold SF2R, F2R. cbn [Fnum Fexp cond_Zopp]. change (bpow radix2 (-50)) with (/ 1125899906842624). lra.
Qed.
(** a product with a factor in [0, 1] *)
Lemma shrink (x u : f64) : plain_number x -> fin u -> 0 <= B2R u <= 1 ->
  plain_number (Bmult mode_NE x u) /\ B2R (Bmult mode_NE x u) <= B2R x.
Proof.
  intros (Hx & H0) Hu H. assert (P : 0 <= B2R x * B2R u <= B2R x) by nra.
  destruct (mul_ok x u Hx Hu) as (M1 & M2).
  { apply (no_overflow _ x). rewrite Rabs_pos_eq; lra. }
  split; [split; [exact M1|]|]; rewrite M2; [apply rd_nonneg; lra|apply rd_le_id; lra].
Qed.
Lemma big_le_1000 e : (10 <= e)%Z -> 1000 <= bpow radix2 e.
Proof. intros H. apply Rle_trans with (bpow radix2 10); [cbn; lra|apply bpow_le; exact H]. Qed.
(** a product of plain numbers, one up to 2^900, the other up to 2^53 *)
Lemma product (x y : f64) : plain_number x -> plain_number y -> B2R x <= bpow radix2 900 -> B2R y <= bpow radix2 53 ->
  plain_number (Bmult mode_NE x y) /\ B2R (Bmult mode_NE x y) = rd (B2R x * B2R y).
Proof.
  intros (Hx & H0) (Hy & H1) H2 H3.
  assert (P : 0 <= B2R x * B2R y) by (apply Rmult_le_pos; assumption).
  destruct (mul_ok x y Hx Hy) as (M1 & M2).
  { apply (no_overflow_bpow _ 953); [lia|]. rewrite Rabs_pos_eq by exact P. change 953%Z with (900 + 53)%Z. rewrite bpow_plus.
    apply Rmult_le_compat; assumption. }
  split; [split; [exact M1|rewrite M2; apply rd_nonneg, P]|exact M2].
Qed.
Lemma pmax_ok (mfp : f64) : plain_number mfp -> B2R mfp <= bpow radix2 900 ->
  plain_number (ndiv mfp cSQRTPI) /\ B2R (ndiv mfp (cSQRTPI : f64)) <= bpow radix2 900.
Proof.
  intros (Hf & H0) H. destruct sqrtpi_ok as (Sf & Sb). change (@ndiv f64 NB) with (Bdiv mode_NE : f64 -> f64 -> f64).
  assert (Q : 0 <= B2R mfp / B2R (cSQRTPI : f64) <= B2R mfp).
  { split; [apply Rmult_le_pos; [exact H0|apply Rlt_le, Rinv_0_lt_compat; lra]|].
    apply Rmult_le_reg_r with (B2R (cSQRTPI : f64)); [lra|]. unfold Rdiv. rewrite Rmult_assoc, Rinv_l, Rmult_1_r by lra. nra. }
  destruct (div_ok mfp cSQRTPI Hf) as (D1 & D2); [lra|apply (no_overflow _ mfp); rewrite Rabs_pos_eq; lra|].
  split; [split; [exact D1|]|]; rewrite D2; [apply rd_nonneg; lra|].
  eapply Rle_trans; [apply (rd_le_id _ mfp); lra|exact H].
Qed.
Lemma root_ok (x : f64) : plain_number x -> B2R x <= bpow radix2 53 ->
  plain_number (nsqrt x) /\ B2R (nsqrt x) <= bpow radix2 53 /\ B2R (nsqrt x) = rd (sqrt (B2R x)).
Proof.
  intros (Hf & H0) H. change (@nsqrt f64 NB) with (Bsqrt mode_NE : f64 -> f64).
  destruct (sqrt_ok x Hf H0) as (S1 & S2). rewrite S2. split; [split; [exact S1|rewrite S2; apply rd_nonneg, sqrt_pos]|]. split; [|reflexivity].
  rewrite <- (rd_bpow 53) by lia. apply rd_mono. apply Rle_trans with (sqrt (bpow radix2 106)).
  - apply sqrt_le_1_alt. eapply Rle_trans; [exact H|]. apply bpow_le. lia.
  - change 106%Z with (53 + 53)%Z. rewrite bpow_plus, sqrt_square by apply bpow_ge_0. lra.
Qed.
Lemma radius_ok (mfp : f64) k : plain_number mfp -> B2R mfp <= bpow radix2 900 -> (Z.of_nat k <= 2 ^ 53)%Z ->
  plain_number (@radius lm mfp k) /\ B2R (@radius lm mfp k) = rd (B2R (ndiv mfp (cSQRTPI : f64)) * rd (sqrt (INR k))).
Proof.
  intros Hm Hb Hk. destruct (pmax_ok mfp Hm Hb) as (P1 & P2). destruct (nnat_ok k Hk) as (N1 & N2).
  assert (K : INR k <= bpow radix2 53) by (rewrite INR_IZR_INZ; change (bpow radix2 53) with (IZR (2 ^ 53)); apply IZR_le; exact Hk).
  destruct (root_ok (nnat k)) as (R1 & R2 & R3); [split; [exact N1|rewrite N2; apply pos_INR]|rewrite N2; exact K|].
  destruct (product _ _ P1 R1 P2 R2) as (M1 & M2). rewrite R3, N2 in M2. split; [exact M1|exact M2].
Qed.
(** an impact parameter is between the radii of its annulus *)
Lemma impact_ok (mfp u : f64) k : plain_number mfp -> B2R mfp <= bpow radix2 900 -> (Z.of_nat (S k) <= 2 ^ 53)%Z -> random_double u ->
  let b := nmul (ndiv mfp cSQRTPI) (nsqrt (nadd u (nnat k))) in
  plain_number b /\ B2R (@radius lm mfp k) <= B2R b <= B2R (@radius lm mfp (S k)).
Proof.
  intros Hm Hb Hk (Uf & Hu) b. destruct (pmax_ok mfp Hm Hb) as (P1 & P2). destruct (nnat_ok k ltac:(lia)) as (N1 & N2).
  destruct (nnat_ok (S k) Hk) as (T1 & T2).
  assert (K : INR (S k) <= bpow radix2 53) by (rewrite INR_IZR_INZ; change (bpow radix2 53) with (IZR (2 ^ 53)); apply IZR_le; exact Hk).
  destruct (add_ok u (nnat k) Uf N1) as (A1 & A2).
  { apply (no_overflow _ (nnat (S k))). rewrite N2, T2, S_INR. pose proof (pos_INR k). rewrite Rabs_pos_eq; lra. }
  rewrite N2 in A2.
  assert (AB : INR k <= B2R (nadd u (nnat k)) <= INR (S k)).
  { change (@nadd f64 NB) with (Bplus mode_NE : f64 -> f64 -> f64). rewrite A2. split.
    - rewrite <- N2 at 1. apply rd_ge_id. rewrite N2. lra.
    - rewrite <- T2. apply rd_le_id. rewrite T2, S_INR. lra. }
  change (@nadd f64 NB) with (Bplus mode_NE : f64 -> f64 -> f64) in AB. pose proof (pos_INR k) as K0.
  destruct (root_ok (Bplus mode_NE u (nnat k))) as (R1 & R2 & R3); [split; [exact A1|eapply Rle_trans; [exact K0|apply AB]]|eapply Rle_trans; [apply AB|exact K]|].
  destruct (product _ _ P1 R1 P2 R2) as (M1 & M2). rewrite R3 in M2.
  destruct (radius_ok mfp k Hm Hb ltac:(lia)) as (_ & E1). destruct (radius_ok mfp (S k) Hm Hb Hk) as (_ & E2).
  split; [exact M1|]. rewrite E1, E2. eapply (eq_ind_r (fun r => _ <= r <= _)); [|exact M2].
  destruct P1 as (_ & P1). split; apply rd_mono, Rmult_le_compat_l; try exact P1; apply rd_mono, sqrt_le_1_alt; apply AB.
Qed.
Lemma radius_mono (mfp : f64) j k : plain_number mfp -> B2R mfp <= bpow radix2 900 -> (j <= k)%nat -> (Z.of_nat k <= 2 ^ 53)%Z ->
  B2R (@radius lm mfp j) <= B2R (@radius lm mfp k).
Proof.
  intros Hm Hb Hj Hk. destruct (radius_ok mfp k Hm Hb Hk) as (_ & E1). destruct (radius_ok mfp j Hm Hb ltac:(lia)) as (_ & E2).
  rewrite E1, E2. destruct (pmax_ok mfp Hm Hb) as ((_ & P1) & _). apply rd_mono, Rmult_le_compat_l; [exact P1|].
  apply rd_mono, sqrt_le_1_alt, le_INR, Hj.
Qed.
(** azimuths *)
Lemma azimuth_ok (u : f64) : random_double u -> let phi := nmul (nmul (nZ 2) npi) u in
  plain_number phi /\ B2R phi <= B2R (nmul (nZ 2) npi : f64).
Proof.
  intros (Uf & Hu) phi. destruct two_pi_ok as (P1 & P2). apply (shrink (nmul (nZ 2) npi) u); [split; [exact P1|lra]|exact Uf|lra].
Qed.
(** paths *)
Lemma path_ok options (first : bool) (mfp : f64) rng n : plain_number mfp -> B2R mfp <= bpow radix2 900 -> (forall k, random_double (rng k)) ->
  (o_mean_free_path_model options = GASEOUS -> sane_ln lm /\ forall k, 0 < B2R (rng k)) ->
  let l := sampled_path options first mfp rng n in
  plain_number l /\ (o_mean_free_path_model options <> GASEOUS -> B2R l <= B2R mfp) /\ B2R l <= rd (1000 * B2R mfp).
Proof.
  intros Hm Hb Hr Hg l. unfold l, sampled_path. cbv zeta.
  set (l1 := if first then nmul mfp (rng n) else mfp).
  assert (L1 : plain_number l1 /\ B2R l1 <= B2R mfp).
  { unfold l1. destruct first; [|split; [exact Hm|lra]]. destruct (Hr n) as (Uf & Hu). apply shrink; [exact Hm|exact Uf|lra]. }
  destruct L1 as (L1 & L2). destruct Hm as (Mf & M0).
  assert (B : B2R mfp <= rd (1000 * B2R mfp)) by (rewrite <- (rd_id mfp) at 1; apply rd_mono; lra).
  destruct (o_mean_free_path_model options) as [| |d] eqn:Em;
    try (split; [exact L1|split; [intros _; exact L2|lra]]).
  destruct (Hg eq_refl) as (Hl & Hp). set (k := if first then S n else n).
  destruct (Hl (rng k)) as (G1 & G2); [apply Hr|split; [apply Hp|apply Hr]|].
  destruct (opp_ok (lb_ln lm (rng k))) as (O1 & O2). rewrite G1 in O1.
  change (nneg (nln (rng k))) with (Bopp (lb_ln lm (rng k))). change (@nmul f64 NB) with (Bmult mode_NE : f64 -> f64 -> f64).
  destruct (product l1 (Bopp (lb_ln lm (rng k)))) as (Q1 & Q2); [exact L1|split; [exact O1|lra]|lra| |].
  - rewrite O2. apply Rle_trans with 1000; [lra|apply big_le_1000; lia].
  - split; [exact Q1|]. split; [congruence|]. rewrite Q2, O2. apply rd_mono. destruct L1 as (_ & L1).
    apply Rle_trans with (B2R l1 * 1000); [apply Rmult_le_compat_l; lra|lra].
Qed.
End With.
