(** * ProofsFloat.v - binary64: rounding facts. *)
From Coq Require Import ZArith List Bool Reals Lra Lia Floats.SpecFloat.
From Flocq Require Import Core BinarySingleNaN Relative.
From Verif Require Import Num NumSF NumB.
Import ListNotations.
Open Scope R_scope.

Notation fmt := (SpecFloat.fexp prec emax).
(** round to nearest, ties to even, in the exponent range of binary64 *)
Definition rd (x : R) : R := round radix2 fmt (round_mode mode_NE) x.
Notation fin x := (is_finite x = true).
Notation b0 := (B754_zero false : f64).

#[global] Instance fmt_valid : Valid_exp fmt := fexp_correct prec emax prec_pos.
#[global] Instance fmt_mono : Monotone_exp fmt := fexp_monotone prec emax.

Lemma rd_mono x y : x <= y -> rd x <= rd y.
Proof. apply round_le; apply valid_rnd_round_mode || apply _. Qed.
Lemma rd_id (b : f64) : rd (B2R b) = B2R b.
Proof. apply round_generic; [apply valid_rnd_round_mode|]. apply generic_format_B2R. Qed.
Lemma rd_0 : rd 0 = 0.
Proof. apply round_0. apply valid_rnd_round_mode. Qed.
Lemma rd_opp x : rd (- x) = - rd x.
Proof. unfold rd. cbn [round_mode]. apply round_NE_opp. Qed.
Lemma rd_nonneg x : 0 <= x -> 0 <= rd x.
Proof. intro H. rewrite <- rd_0. apply rd_mono, H. Qed.
Lemma rd_le_id x (b : f64) : x <= B2R b -> rd x <= B2R b.
Proof. intro H. rewrite <- (rd_id b). apply rd_mono, H. Qed.
Lemma rd_ge_id x (b : f64) : B2R b <= x -> B2R b <= rd x.
Proof. intro H. rewrite <- (rd_id b). apply rd_mono, H. Qed.
Lemma rd_abs_le x (b : f64) : Rabs x <= B2R b -> Rabs (rd x) <= B2R b.
Proof.
  intro H. apply Rabs_le. unfold Rabs in H. split.
  - replace (- B2R b) with (rd (- B2R b)) by (rewrite rd_opp, rd_id; reflexivity). apply rd_mono.
    destruct (Rcase_abs x); lra.
  - apply rd_le_id. destruct (Rcase_abs x); lra.
Qed.
Lemma below_max (b : f64) : Rabs (B2R b) < bpow radix2 emax.
Proof. apply abs_B2R_lt_emax. Qed.
Lemma no_overflow x (b : f64) : Rabs x <= B2R b -> Rlt_bool (Rabs (rd x)) (bpow radix2 emax) = true.
Proof.
  intro H. apply Rlt_bool_true. eapply Rle_lt_trans; [apply rd_abs_le; exact H|].
  eapply Rle_lt_trans; [apply Rle_abs|]. apply below_max.
Qed.

(** powers of two *)
Definition two_to (e : Z) (H : (-1074 <= e < 1024)%Z) : R := bpow radix2 e.
Lemma rd_bpow e : (-1074 <= e)%Z -> rd (bpow radix2 e) = bpow radix2 e.
Proof.
  intro H. apply round_generic; [apply valid_rnd_round_mode|].
  apply generic_format_bpow. unfold SpecFloat.fexp, SpecFloat.emin, prec, emax. lia.
Qed.
Lemma rd_abs_bpow x e : (-1074 <= e)%Z -> Rabs x <= bpow radix2 e -> Rabs (rd x) <= bpow radix2 e.
Proof.
  intros He H. apply Rabs_le. assert (- bpow radix2 e <= x <= bpow radix2 e) by (apply Rabs_le_inv; exact H). split.
  - rewrite <- (rd_bpow e He) at 1. rewrite <- rd_opp. apply rd_mono. lra.
  - rewrite <- (rd_bpow e He). apply rd_mono. lra.
Qed.
Lemma no_overflow_bpow x e : (-1074 <= e < 1024)%Z -> Rabs x <= bpow radix2 e ->
  Rlt_bool (Rabs (rd x)) (bpow radix2 emax) = true.
Proof.
  intros He H. apply Rlt_bool_true. eapply Rle_lt_trans; [apply (rd_abs_bpow x e); [lia|exact H]|].
  apply bpow_lt. unfold emax. lia.
Qed.
(** relative error in the normal range *)
Definition u64 : R := bpow radix2 (-53).
Lemma rd_error x : bpow radix2 (-1022) <= Rabs x -> Rabs (rd x - x) <= u64 * Rabs x.
Proof.
  intro H. unfold rd. cbn [round_mode].
  pose proof (relative_error_N_FLT radix2 (-1074) 53 ltac:(reflexivity) (fun z => negb (Z.even z)) x) as K.
  change fmt with (FLT_exp (-1074) 53). 
  replace u64 with (/ 2 * bpow radix2 (- (53) + 1)).
  - apply K. exact H.
  - unfold u64. replace (-53)%Z with (-1 + (-(53) + 1))%Z by lia. rewrite bpow_plus. f_equal. cbn. lra.
Qed.
Lemma rd_bounds x : bpow radix2 (-1022) <= x -> x * (1 - u64) <= rd x <= x * (1 + u64).
Proof.
  intro H. assert (0 < x) by (eapply Rlt_le_trans; [apply (bpow_gt_0 radix2 (-1022))|exact H]).
  pose proof (rd_error x) as K. rewrite (Rabs_pos_eq x) in K by lra. specialize (K H).
  apply Rabs_le_inv in K. lra.
Qed.
(** scaling by a power of two is exact in the normal range *)
Lemma rd_scale x e : bpow radix2 (-1022) <= Rabs x -> (0 <= e)%Z -> rd (x * bpow radix2 e) = rd x * bpow radix2 e.
Proof.
  intros H He. unfold rd, round, F2R, scaled_mantissa, cexp. cbn [Fnum Fexp].
  assert (x <> 0). { intro E. rewrite E, Rabs_R0 in H. pose proof (bpow_gt_0 radix2 (-1022)). lra. }
  rewrite mag_mult_bpow by assumption.
  assert (M : (-1021 <= mag radix2 x)%Z).
  { apply (mag_ge_bpow radix2 x (-1021)). exact H. }
  replace (fmt (mag radix2 x + e)) with (fmt (mag radix2 x) + e)%Z.
  2: { unfold SpecFloat.fexp, SpecFloat.emin, prec, emax. lia. }
  rewrite (bpow_plus radix2 (fmt (mag radix2 x)) e).
  replace (x * bpow radix2 e * bpow radix2 (- (fmt (mag radix2 x) + e))) with (x * bpow radix2 (- fmt (mag radix2 x))).
  - ring.
  - replace (- (fmt (mag radix2 x) + e))%Z with (- fmt (mag radix2 x) + - e)%Z by lia. rewrite bpow_plus.
    replace (x * bpow radix2 e * (bpow radix2 (- fmt (mag radix2 x)) * bpow radix2 (- e)))
      with (x * bpow radix2 (- fmt (mag radix2 x)) * (bpow radix2 e * bpow radix2 (- e))) by ring.
    rewrite <- bpow_plus. replace (e + - e)%Z with 0%Z by lia. cbn. ring.
Qed.

(** ** The operations, when they do not overflow *)
Lemma mul_ok (x y : f64) : fin x -> fin y -> Rlt_bool (Rabs (rd (B2R x * B2R y))) (bpow radix2 emax) = true ->
  fin (Bmult mode_NE x y) /\ B2R (Bmult mode_NE x y) = rd (B2R x * B2R y).
Proof.
  intros Hx Hy H. pose proof (Bmult_correct prec emax _ _ mode_NE x y) as K. unfold rd in H. rewrite H in K.
  destruct K as (K1 & K2 & _). rewrite K2, Hx, Hy. split; [reflexivity|exact K1].
Qed.
Lemma add_ok (x y : f64) : fin x -> fin y -> Rlt_bool (Rabs (rd (B2R x + B2R y))) (bpow radix2 emax) = true ->
  fin (Bplus mode_NE x y) /\ B2R (Bplus mode_NE x y) = rd (B2R x + B2R y).
Proof.
  intros Hx Hy H. pose proof (Bplus_correct prec emax _ _ mode_NE x y Hx Hy) as K. unfold rd in H. rewrite H in K.
  destruct K as (K1 & K2 & _). split; [exact K2|exact K1].
Qed.
Lemma sub_ok (x y : f64) : fin x -> fin y -> Rlt_bool (Rabs (rd (B2R x - B2R y))) (bpow radix2 emax) = true ->
  fin (Bminus mode_NE x y) /\ B2R (Bminus mode_NE x y) = rd (B2R x - B2R y).
Proof.
  intros Hx Hy H. pose proof (Bminus_correct prec emax _ _ mode_NE x y Hx Hy) as K. unfold rd in H. rewrite H in K.
  destruct K as (K1 & K2 & _). split; [exact K2|exact K1].
Qed.
Lemma div_ok (x y : f64) : fin x -> B2R y <> 0 -> Rlt_bool (Rabs (rd (B2R x / B2R y))) (bpow radix2 emax) = true ->
  fin (Bdiv mode_NE x y) /\ B2R (Bdiv mode_NE x y) = rd (B2R x / B2R y).
Proof.
  intros Hx Hy H. pose proof (Bdiv_correct prec emax _ _ mode_NE x y Hy) as K. unfold rd in H. rewrite H in K.
  destruct K as (K1 & K2 & _). rewrite K2, Hx. split; [reflexivity|exact K1].
Qed.
Lemma opp_ok (x : f64) : is_finite (Bopp x) = is_finite x /\ B2R (Bopp x) = - B2R x.
Proof. split; [apply is_finite_Bopp|apply B2R_Bopp]. Qed.

(** ** Comparisons *)
Lemma le_fin (x y : f64) : fin x -> fin y -> Bleb x y = true <-> B2R x <= B2R y.
Proof.
  intros Hx Hy. rewrite Bleb_correct by assumption. split.
  - intro H. destruct (Rle_bool_spec (B2R x) (B2R y)); [assumption|discriminate].
  - apply Rle_bool_true.
Qed.
Lemma lt_fin (x y : f64) : fin x -> fin y -> Bltb x y = true <-> B2R x < B2R y.
Proof.
  intros Hx Hy. rewrite Bltb_correct by assumption. split.
  - intro H. destruct (Rlt_bool_spec (B2R x) (B2R y)); [assumption|discriminate].
  - apply Rlt_bool_true.
Qed.
Lemma nn_cases (x : f64) : Bleb b0 x = true -> x = B754_infinity false \/ (fin x /\ 0 <= B2R x).
Proof.
  intro H. destruct (is_finite x) eqn:E.
  - right. split; [reflexivity|]. apply (le_fin b0 x) in H; auto.
  - destruct x as [s|[]| |s m e]; try discriminate. left. reflexivity.
Qed.
Lemma nn_fin (x : f64) : fin x -> 0 <= B2R x -> Bleb b0 x = true.
Proof. intros H K. apply (le_fin b0 x); auto. Qed.
Lemma lt_nn (x y : f64) : Bleb b0 x = true -> Bltb x y = true -> Bleb b0 y = true.
Proof.
  intros H K. destruct (nn_cases x H) as [->|[Hf H0]].
  - destruct y as [s|[]| |[] m e]; discriminate.
  - destruct (is_finite y) eqn:E.
    + apply nn_fin; [exact E|]. apply (lt_fin x y Hf E) in K. lra.
    + destruct y as [s|[]| |s m e]; try discriminate E; try reflexivity;
        destruct x as [s0|[]| |[] m0 e0]; discriminate.
Qed.
(** not NaN and not below zero *)
Lemma not_lt_nn (x : f64) : is_nan x = false -> Bltb x b0 = false -> Bleb b0 x = true.
Proof. destruct x as [s|[]| |[] m e]; try reflexivity; discriminate. Qed.
