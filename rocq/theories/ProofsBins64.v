(** * ProofsBins64.v - floor, cast and division of doubles; bins *)
From Coq Require Import ZArith List Bool Reals Lra Lia Floats.SpecFloat.
From Flocq Require Import Core BinarySingleNaN.
From Verif Require Import Num NumSF NumB ModelTypes ModelParticle ModelOutput ProofsBase ProofsFloat ProofsOrder64 ProofsSampling64 ProofsHist.
Import ListNotations.
Open Scope R_scope.

Definition clamp (z : Z) : Z := Z.max (- 2 ^ 31) (Z.min (2 ^ 31 - 1) z).
Lemma clamp_mono a b : (a <= b)%Z -> (clamp a <= clamp b)%Z.
Proof. unfold clamp. lia. Qed.
Lemma shift_floor (m : Z) (e : Z) : (e < 0)%Z -> Z.shiftr m (- e) = Zfloor (IZR m * bpow radix2 e).
Proof.
  intros He. rewrite Z.shiftr_div_pow2 by lia. rewrite <- Zfloor_div.
  - f_equal. unfold Rdiv. f_equal. replace e with (- (- e))%Z at 2 by lia. rewrite bpow_opp. f_equal. rewrite <- IZR_Zpower by lia. reflexivity.
  - apply Z.pow_nonzero; lia.
Qed.
Lemma trunc_ok (x : f64) : fin x -> sf_trunc (B2SF x) = Some (Ztrunc (B2R x)).
Proof.
  destruct x as [s|s| |s m e Hb]; try discriminate; intros _; cbn [B2SF sf_trunc].
  - cbn [B2R]. rewrite Ztrunc_IZR. reflexivity.
  - f_equal.
    assert (P : Z.shiftl (Zpos m) e = Ztrunc (IZR (Zpos m) * bpow radix2 e)).
    { destruct (Z_lt_le_dec e 0) as [L|L].
      - rewrite Ztrunc_floor by (apply Rmult_le_pos; [apply IZR_le; lia|apply bpow_ge_0]). rewrite <- shift_floor by exact L.
        rewrite Z.shiftl_div_pow2, Z.shiftr_div_pow2 by lia. reflexivity.
      - rewrite Z.shiftl_mul_pow2 by exact L. rewrite <- IZR_Zpower by exact L. rewrite <- mult_IZR, Ztrunc_IZR. reflexivity. }
    change (B2R (B754_finite s m e Hb)) with (IZR (cond_Zopp s (Zpos m)) * bpow radix2 e).
    destruct s; cbn [cond_Zopp].
    + rewrite P. rewrite <- Ztrunc_opp. f_equal. rewrite opp_IZR. ring.
    + exact P.
Qed.
Lemma cast_ok (x : f64) : fin x -> sf_to_i32 (B2SF x) = clamp (Ztrunc (B2R x)).
Proof.
  intros Hx. pose proof (trunc_ok x Hx) as T. destruct x as [s|s| |s m e Hb]; try discriminate; cbn [B2SF sf_to_i32] in *.
  - cbn [B2R]. rewrite Ztrunc_IZR. reflexivity.
  - rewrite T. reflexivity.
Qed.
Lemma mantissa_small m e : bounded prec emax m e = true -> (Zpos m < 2 ^ 53)%Z.
Proof.
  intros H. unfold bounded in H. apply andb_prop in H. destruct H as (H & _). unfold canonical_mantissa in H. apply Zeq_bool_eq in H.
  unfold SpecFloat.fexp, SpecFloat.emin, prec, emax in H.
  change (Z.abs (Zpos m) < Zpower radix2 53)%Z. apply Zpower_gt_Zdigits. rewrite <- Zpos_digits2_pos. lia.
Qed.
Lemma rd_IZR_signed (m : Z) : (Z.abs m <= 2 ^ 53)%Z -> rd (IZR m) = IZR m.
Proof.
  intros H. destruct (Z_le_gt_dec 0 m) as [L|L]; [apply rd_IZR; lia|].
  replace (IZR m) with (- IZR (- m)) by (rewrite opp_IZR; ring). rewrite rd_opp, rd_IZR by lia. reflexivity.
Qed.
Lemma normalize_int (q : Z) s : (Z.abs q <= 2 ^ 53)%Z ->
  fin (binary_normalize prec emax prec_pos prec_small mode_NE q 0 s) /\ B2R (binary_normalize prec emax prec_pos prec_small mode_NE q 0 s) = IZR q.
Proof.
  intros H. pose proof (binary_normalize_correct prec emax prec_pos prec_small mode_NE q 0 s) as K.
  assert (V : F2R (Float radix2 q 0) = IZR q) by (unfold F2R; cbn; lra). rewrite V in K.
  pose proof (rd_IZR_signed q H) as Q. unfold rd in Q. cbv zeta in K. rewrite Q in K. rewrite Rlt_bool_true in K.
  - destruct K as (K1 & K2 & _). auto.
  - rewrite <- abs_IZR. apply Rle_lt_trans with (IZR (2 ^ 53)); [apply IZR_le; lia|].
    replace (IZR (2 ^ 53)) with (bpow radix2 53) by (cbn; lra). apply bpow_lt. reflexivity.
Qed.
Lemma floor_ok (x : f64) : fin x -> fin (of_sf (sf_floor (B2SF x))) /\ B2R (of_sf (sf_floor (B2SF x))) = IZR (Zfloor (B2R x)).
Proof.
  assert (S : forall y : f64, of_sf (B2SF y) = y).
  { intros y. apply B2SF_inj. apply of_sf_valid. apply valid_binary_B2SF. }
  destruct x as [s|s| |s m e Hb]; try discriminate; intros _.
  - change (sf_floor (B2SF (B754_zero s))) with (B2SF (B754_zero s : f64)). rewrite S. cbn [B2R]. rewrite Zfloor_IZR. split; reflexivity.
  - change (sf_floor (B2SF (B754_finite s m e Hb))) with (if (0 <=? e)%Z then B2SF (B754_finite s m e Hb : f64)
      else let q := Z.shiftr (if s then Zneg m else Zpos m) (- e) in match q with Z0 => B2SF (B754_zero s : f64) | _ => SpecFloat.binary_normalize prec emax q 0 s end).
    destruct (Z.leb_spec 0 e) as [L|L].
    + rewrite S. split; [reflexivity|].
      change (B2R (B754_finite s m e Hb)) with (IZR (cond_Zopp s (Zpos m)) * bpow radix2 e).
      rewrite <- IZR_Zpower by exact L. rewrite <- mult_IZR, Zfloor_IZR. reflexivity.
    + change (B2R (B754_finite s m e Hb)) with (IZR (cond_Zopp s (Zpos m)) * bpow radix2 e).
      replace (if s then Zneg m else Zpos m) with (cond_Zopp s (Zpos m)) by (destruct s; reflexivity).
      cbv zeta. rewrite <- (shift_floor _ e L). set (q := Z.shiftr (cond_Zopp s (Zpos m)) (- e)).
      assert (Hq : (Z.abs q <= 2 ^ 53)%Z).
      { pose proof (mantissa_small m e Hb) as M. unfold q. rewrite Z.shiftr_div_pow2 by lia.
        assert (P : (1 <= 2 ^ (- e))%Z) by (apply (Z.pow_le_mono_r 2 0 (- e)); lia).
        destruct s; cbn [cond_Zopp].
        - assert (- Zpos m <= - Zpos m / 2 ^ (- e))%Z by (apply Z.div_le_lower_bound; nia).
          assert (- Zpos m / 2 ^ (- e) <= 0)%Z by (apply Z.div_le_upper_bound; lia). change (Z.neg m) with (- Zpos m)%Z in *. lia.
        - assert (0 <= Zpos m / 2 ^ (- e))%Z by (apply Z.div_pos; lia).
          assert (Zpos m / 2 ^ (- e) <= Zpos m)%Z by (apply Z.div_le_upper_bound; nia). lia. }
      clearbody q. destruct q as [|p|p]; cbv beta iota.
      * rewrite S. split; reflexivity.
      * rewrite binary_normalize_equiv, S. apply normalize_int. exact Hq.
      * rewrite binary_normalize_equiv, S. apply normalize_int. exact Hq.
Qed.
Lemma floor_cast (x : f64) : fin x -> sf_to_i32 (B2SF (of_sf (sf_floor (B2SF x)))) = clamp (Zfloor (B2R x)).
Proof. intros Hx. destruct (floor_ok x Hx) as (H1 & H2). rewrite cast_ok by exact H1. rewrite H2, Ztrunc_IZR. reflexivity. Qed.

(** ** Differences and quotients, infinities included *)
Lemma sign_pos (x : f64) : fin x -> Bsign x = false -> 0 <= B2R x.
Proof.
  destruct x as [s|s| |s m e]; try discriminate; cbn [Bsign]; intros _ ->; cbn [B2R]; [lra|].
  apply F2R_ge_0. cbn. lia.
Qed.
Lemma infinity_of_SF (x : f64) s : B2SF x = S754_infinity s -> x = B754_infinity s.
Proof. destruct x; cbn; congruence. Qed.
Lemma minus_key (a b : f64) : fin a -> fin b -> is_nan (Bminus mode_NE a b) = false /\ key (Bminus mode_NE a b) = clip (B2R a - B2R b).
Proof.
  intros Fa Fb. pose proof huge_pos as HP. pose proof (Bminus_correct prec emax _ _ mode_NE a b Fa Fb) as K. cbv zeta in K.
  destruct (Rlt_bool (Rabs (rd (B2R a - B2R b))) (bpow radix2 emax)) eqn:E.
  - pose proof E as E'. unfold rd in E. rewrite E in K. destruct K as (K1 & K2 & _). fold (rd (B2R a - B2R b)) in K1.
    split; [clear - K2; destruct (Bminus mode_NE a b); try discriminate; reflexivity|]. rewrite key_fin by exact K2. rewrite clip_mid by exact E'. exact K1.
  - pose proof E as E'. unfold rd in E. rewrite E in K. destruct K as (K1 & K2).
    destruct (Rlt_bool_spec (Rabs (rd (B2R a - B2R b))) (bpow radix2 emax)) as [L|L]; [discriminate|].
    change (B2SF (Bminus mode_NE a b) = S754_infinity (Bsign a)) in K1. apply infinity_of_SF in K1. rewrite K1. split; [reflexivity|].
    destruct (Bsign a) eqn:S; cbn [key].
    + symmetry in K2. apply negb_true_iff in K2. pose proof (sign_neg a Fa S). pose proof (sign_pos b Fb K2).
      assert (M : rd (B2R a - B2R b) <= 0) by (rewrite <- rd_0; apply rd_mono; lra).
      rewrite Rabs_left1 in L by exact M. symmetry. apply clip_low. lra.
    + symmetry in K2. apply negb_false_iff in K2. pose proof (sign_pos a Fa S). pose proof (sign_neg b Fb K2).
      rewrite Rabs_pos_eq in L by (apply rd_nonneg; lra). symmetry. apply clip_big. exact L.
Qed.
Lemma quotient_key (a d : f64) : fin a -> fin d -> 0 < B2R d -> is_nan (Bdiv mode_NE a d) = false /\ key (Bdiv mode_NE a d) = clip (B2R a / B2R d).
Proof.
  intros Fa Fd Hd. pose proof huge_pos as HP. pose proof (Bdiv_correct prec emax _ _ mode_NE a d ltac:(lra)) as K. cbv zeta in K.
  destruct (Rlt_bool (Rabs (rd (B2R a / B2R d))) (bpow radix2 emax)) eqn:E.
  - pose proof E as E'. unfold rd in E. rewrite E in K. destruct K as (K1 & K2 & _). fold (rd (B2R a / B2R d)) in K1. rewrite Fa in K2.
    split; [clear - K2; destruct (Bdiv mode_NE a d); try discriminate; reflexivity|]. rewrite key_fin by exact K2. rewrite clip_mid by exact E'. exact K1.
  - pose proof E as E'. unfold rd in E. rewrite E in K.
    destruct (Rlt_bool_spec (Rabs (rd (B2R a / B2R d))) (bpow radix2 emax)) as [L|L]; [discriminate|].
    change (B2SF (Bdiv mode_NE a d) = S754_infinity (xorb (Bsign a) (Bsign d))) in K. apply infinity_of_SF in K. rewrite K. split; [reflexivity|].
    assert (Sd : Bsign d = false). { destruct (Bsign d) eqn:S; [|reflexivity]. pose proof (sign_neg d Fd S). lra. }
    rewrite Sd, xorb_false_r. assert (Hi : 0 < / B2R d) by (apply Rinv_0_lt_compat; exact Hd).
    destruct (Bsign a) eqn:S; cbn [key].
    + pose proof (sign_neg a Fa S). assert (M : rd (B2R a / B2R d) <= 0) by (rewrite <- rd_0; apply rd_mono; unfold Rdiv; nra).
      rewrite Rabs_left1 in L by exact M. symmetry. apply clip_low. lra.
    + pose proof (sign_pos a Fa S). rewrite Rabs_pos_eq in L by (apply rd_nonneg; unfold Rdiv; nra). symmetry. apply clip_big. exact L.
Qed.
Lemma key_range (x : f64) : is_nan x = false -> - bpow radix2 emax <= key x <= bpow radix2 emax.
Proof.
  pose proof huge_pos. intros N. destruct (is_finite x) eqn:F; [pose proof (key_bound x F); lra|].
  destruct x as [s|[]| |s m e]; try discriminate; cbn [key]; lra.
Qed.
Lemma not_finite (x : f64) : is_nan x = false -> is_finite x = false -> x = B754_infinity true \/ x = B754_infinity false.
Proof. destruct x as [s|[]| |s m e]; try discriminate; auto. Qed.
Lemma quotient_mono (a b d : f64) : is_nan a = false -> is_nan b = false -> fin d -> 0 < B2R d -> key a <= key b ->
  is_nan (Bdiv mode_NE a d) = false /\ is_nan (Bdiv mode_NE b d) = false /\ key (Bdiv mode_NE a d) <= key (Bdiv mode_NE b d).
Proof.
  intros Na Nb Fd Hd H. pose proof huge_pos as HP.
  assert (Sd : Bsign d = false). { destruct (Bsign d) eqn:S; [|reflexivity]. pose proof (sign_neg d Fd S). lra. }
  assert (I : forall s, Bdiv mode_NE (B754_infinity s) d = B754_infinity s).
  { intros s. destruct d as [s'|s'| |s' m e]; try discriminate Fd; cbn [Bsign] in Sd; subst; cbn [B2R] in Hd; [lra|]. cbn. rewrite xorb_false_r. reflexivity. }
  assert (Q : forall x, is_nan x = false -> is_nan (Bdiv mode_NE x d) = false).
  { intros x Nx. destruct (is_finite x) eqn:F; [apply quotient_key; assumption|]. destruct (not_finite x Nx F) as [-> | ->]; rewrite I; reflexivity. }
  split; [auto|]. split; [auto|].
  destruct (is_finite a) eqn:Fa.
  - destruct (is_finite b) eqn:Fb.
    + destruct (quotient_key a d Fa Fd Hd) as (_ & ->). destruct (quotient_key b d Fb Fd Hd) as (_ & ->). apply clip_mono.
      rewrite !key_fin in H by assumption. apply Rmult_le_compat_r; [left; apply Rinv_0_lt_compat; exact Hd|exact H].
    + destruct (not_finite b Nb Fb) as [-> | ->]; [pose proof (key_bound a Fa); cbn [key] in H; lra|]. rewrite I. cbn [key]. apply key_range. auto.
  - destruct (not_finite a Na Fa) as [-> | ->].
    + rewrite I. cbn [key]. apply key_range. auto.
    + destruct (is_finite b) eqn:Fb; [pose proof (key_bound b Fb); cbn [key] in H; lra|].
      destruct (not_finite b Nb Fb) as [-> | ->]; [cbn [key] in H; lra|]. rewrite I. apply Rle_refl.
Qed.
Lemma sf_floor_inf s : B2SF (of_sf (sf_floor (B2SF (B754_infinity s : f64)))) = S754_infinity s.
Proof. change (sf_floor (B2SF (B754_infinity s : f64))) with (B2SF (B754_infinity s : f64)). rewrite of_sf_valid by apply valid_binary_B2SF. reflexivity. Qed.
Lemma Ztrunc_mono x y : x <= y -> (Ztrunc x <= Ztrunc y)%Z.
Proof. apply Ztrunc_le. Qed.
(** an integer function of the doubles that is clamp of a monotone one on finite numbers and extreme at the infinities *)
Lemma index_mono (f : f64 -> Z) (g : R -> Z) : (forall x y, x <= y -> (g x <= g y)%Z) -> (forall x, fin x -> f x = clamp (g (B2R x))) ->
  f (B754_infinity true) = (- 2 ^ 31)%Z -> f (B754_infinity false) = (2 ^ 31 - 1)%Z ->
  forall a b, is_nan a = false -> is_nan b = false -> key a <= key b -> (f a <= f b)%Z.
Proof.
  intros Hg Hf Hm Hp a b Na Nb H. pose proof huge_pos as HP.
  assert (B : forall z, (- 2 ^ 31 <= clamp z <= 2 ^ 31 - 1)%Z) by (intros z; unfold clamp; lia).
  destruct (is_finite a) eqn:Fa; destruct (is_finite b) eqn:Fb.
  - rewrite !Hf by assumption. apply clamp_mono, Hg. rewrite !key_fin in H by assumption. exact H.
  - destruct (not_finite b Nb Fb) as [-> | ->]; [pose proof (key_bound a Fa); cbn [key] in H; lra|]. rewrite Hp, Hf by assumption. apply B.
  - destruct (not_finite a Na Fa) as [-> | ->]; [|pose proof (key_bound b Fb); cbn [key] in H; lra]. rewrite Hm, Hf by assumption. apply B.
  - destruct (not_finite a Na Fa) as [-> | ->]; destruct (not_finite b Nb Fb) as [-> | ->]; cbn [key] in H; rewrite ?Hm, ?Hp; lia || lra.
Qed.
Section Bins.
  Context (lm : LibmB).
  #[local] Instance NBb : Num f64 := NumB lm.
  Lemma floor_index_mono (a b : f64) : is_nan a = false -> is_nan b = false -> key a <= key b -> (nto_i32 (nfloor a) <= nto_i32 (nfloor b))%Z.
  Proof.
    apply (index_mono (fun x => nto_i32 (nfloor x)) Zfloor).
    - apply Zfloor_le.
    - intros x Fx. exact (floor_cast x Fx).
    - change (sf_to_i32 (B2SF (of_sf (sf_floor (B2SF (B754_infinity true : f64))))) = (- 2 ^ 31)%Z). rewrite sf_floor_inf. reflexivity.
    - change (sf_to_i32 (B2SF (of_sf (sf_floor (B2SF (B754_infinity false : f64))))) = (2 ^ 31 - 1)%Z). rewrite sf_floor_inf. reflexivity.
  Qed.
  Lemma cast_index_mono (a b : f64) : is_nan a = false -> is_nan b = false -> key a <= key b -> (nto_i32 a <= nto_i32 b)%Z.
  Proof.
    apply (index_mono (fun x => nto_i32 x) Ztrunc); [apply Ztrunc_mono|intros x Fx; exact (cast_ok x Fx)|reflexivity|reflexivity].
  Qed.
  (** the quotient whose floor or integer part is the index *)
  Lemma position_mono (r0 d v w : f64) : fin r0 -> fin d -> 0 < B2R d -> fin v -> fin w -> B2R v <= B2R w ->
    let a := ndiv (nsub v r0) d in let b := ndiv (nsub w r0) d in is_nan a = false /\ is_nan b = false /\ key a <= key b.
  Proof.
    intros Fr Fd Hd Fv Fw H. destruct (minus_key v r0 Fv Fr) as (N1 & K1). destruct (minus_key w r0 Fw Fr) as (N2 & K2).
    apply quotient_mono; try assumption. change (key (Bminus mode_NE v r0) <= key (Bminus mode_NE w r0)). rewrite K1, K2. apply clip_mono. lra.
  Qed.
End Bins.

(** ** Axes that start at zero *)
Lemma clip_int (m : Z) : (Z.abs m <= 2 ^ 53)%Z -> clip (IZR m) = IZR m.
Proof.
  intros H. pose proof (rd_IZR_signed m H) as E. rewrite clip_mid; [exact E|]. rewrite E. apply Rlt_bool_true.
  rewrite <- abs_IZR. apply Rle_lt_trans with (IZR (2 ^ 53)); [apply IZR_le; exact H|].
  replace (IZR (2 ^ 53)) with (bpow radix2 53) by (cbn; lra). apply bpow_lt. reflexivity.
Qed.
Lemma u64_small : 0 < u64 < 1.
Proof. unfold u64. split; [apply bpow_gt_0|]. change 1 with (bpow radix2 0). apply bpow_lt. lia. Qed.
Lemma clip_le_rd r : 0 <= r -> clip r <= rd r.
Proof.
  intros H. pose proof huge_pos. apply rd_nonneg in H. unfold clip. apply Rmax_lub; [lra|]. apply Rmin_l.
Qed.
Lemma rd_small r : 0 <= r -> r < bpow radix2 (-1022) -> rd r < 1.
Proof.
  intros H L. apply Rle_lt_trans with (rd (bpow radix2 (-1022))); [apply rd_mono; lra|]. rewrite rd_bpow by lia.
  change 1 with (bpow radix2 0). apply bpow_lt. lia.
Qed.
Lemma clip_above (r : R) (k : Z) : 0 <= r -> IZR k <= clip r -> IZR k * (1 - u64) <= r.
Proof.
  intros H K. pose proof u64_small as U. apply Rle_trans with (r3 := rd r) in K; [|apply clip_le_rd; exact H].
  destruct (Z_le_gt_dec k 0) as [L|L]; [apply IZR_le in L; nra|].
  assert (1 <= IZR k) by (apply IZR_le; lia).
  destruct (Rlt_le_dec r (bpow radix2 (-1022))) as [S|S]; [pose proof (rd_small r H S); lra|].
  pose proof (rd_bounds r S) as (_ & B). nra.
Qed.
Lemma clip_below (r : R) (k : Z) : 0 <= r -> r < IZR k * (1 - u64) -> clip r < IZR k.
Proof.
  intros H K. pose proof u64_small as U. apply Rle_lt_trans with (rd r); [apply clip_le_rd; exact H|].
  assert (0 < IZR k) by nra. apply lt_IZR in H0. assert (1 <= IZR k) by (apply IZR_le; lia).
  destruct (Rlt_le_dec r (bpow radix2 (-1022))) as [S|S]; [pose proof (rd_small r H S); lra|].
  pose proof (rd_bounds r S) as (_ & B). nra.
Qed.
(** the index of a non-negative quotient *)
Lemma index_nonneg (f : f64 -> Z) (q : f64) : (f = (fun x => sf_to_i32 (B2SF (of_sf (sf_floor (B2SF x))))) \/ f = (fun x => sf_to_i32 (B2SF x))) ->
  is_nan q = false -> 0 <= key q -> f q = Z.min (2 ^ 31 - 1) (Zfloor (key q)) \/ (f q = (2 ^ 31 - 1)%Z /\ key q = bpow radix2 emax).
Proof.
  intros Hf N K. pose proof huge_pos as HP. destruct (is_finite q) eqn:F.
  - left. rewrite key_fin in * by exact F.
    assert (Z0 : (0 <= Zfloor (B2R q))%Z) by (apply Zfloor_lub; exact K).
    destruct Hf as [-> | ->]; [rewrite floor_cast by exact F|rewrite cast_ok by exact F; rewrite Ztrunc_floor by exact K]; unfold clamp; lia.
  - right. destruct (not_finite q N F) as [-> | ->]; [cbn [key] in K; lra|]. split; [|reflexivity].
    destruct Hf as [-> | ->]; [rewrite sf_floor_inf|]; reflexivity.
Qed.
Lemma from_zero (f : f64 -> Z) (e0 e1 v : f64) : (f = (fun x => sf_to_i32 (B2SF (of_sf (sf_floor (B2SF x))))) \/ f = (fun x => sf_to_i32 (B2SF x))) ->
  fin e0 -> B2R e0 = 0 -> fin e1 -> 0 < B2R e1 -> fin v -> 0 <= B2R v ->
  let index := f (Bdiv mode_NE (Bminus mode_NE v e0) (Bminus mode_NE e1 e0)) in
  (forall k, (0 <= k < 2 ^ 31 - 1)%Z -> index = k -> IZR k * B2R e1 * (1 - u64) <= B2R v < IZR (k + 1) * B2R e1) /\
  (forall num, (0 <= num <= 2 ^ 31 - 1)%Z -> B2R v < IZR num * B2R e1 * (1 - u64) -> (0 <= index < num)%Z).
Proof.
  intros Hf F0 Z0 F1 P1 Fv Pv index. pose proof u64_small as U.
  assert (S : forall x : f64, fin x -> fin (Bminus mode_NE x e0) /\ B2R (Bminus mode_NE x e0) = B2R x).
  { intros x Fx. destruct (sub_ok x e0 Fx F0) as (A & B).
    - rewrite Z0, Rminus_0_r, rd_id. apply Rlt_bool_true. apply below_max.
    - split; [exact A|]. rewrite B, Z0, Rminus_0_r, rd_id. reflexivity. }
  destruct (S v Fv) as (Fx & Ex). destruct (S e1 F1) as (Fd & Ed).
  destruct (quotient_key (Bminus mode_NE v e0) (Bminus mode_NE e1 e0) Fx Fd) as (N & K); [rewrite Ed; exact P1|].
  rewrite Ex, Ed in K. fold index. set (q := Bdiv mode_NE (Bminus mode_NE v e0) (Bminus mode_NE e1 e0)) in *.
  assert (Pr : 0 <= B2R v / B2R e1) by (apply Rmult_le_pos; [exact Pv|left; apply Rinv_0_lt_compat; exact P1]).
  assert (Pk : 0 <= key q). { rewrite K. rewrite <- (clip_int 0) by lia. apply clip_mono. exact Pr. }
  pose proof (index_nonneg f q Hf N Pk) as I. fold index in I.
  assert (Zq : (0 <= Zfloor (key q))%Z) by (apply Zfloor_lub; exact Pk).
  assert (M : forall a, B2R v / B2R e1 < a -> B2R v < a * B2R e1).
  { intros a H. apply (Rmult_lt_compat_r (B2R e1)) in H; [|exact P1]. unfold Rdiv in H. rewrite Rmult_assoc, Rinv_l in H by lra. lra. }
  assert (M' : forall a, a <= B2R v / B2R e1 -> a * B2R e1 <= B2R v).
  { intros a H. apply (Rmult_le_compat_r (B2R e1)) in H; [|lra]. unfold Rdiv in H. rewrite Rmult_assoc, Rinv_l in H by lra. lra. }
  split.
  - intros k Hk E. destruct I as [I|(I & _)]; [|lia]. assert (Ek : Zfloor (key q) = k) by lia.
    pose proof (Zfloor_lb (key q)) as L1. pose proof (Zfloor_ub (key q)) as L2. rewrite Ek in L1, L2. split.
    + replace (IZR k * B2R e1 * (1 - u64)) with (IZR k * (1 - u64) * B2R e1) by ring. apply M'. apply clip_above; [exact Pr|]. rewrite <- K. exact L1.
    + apply M. destruct (Rlt_le_dec (B2R v / B2R e1) (IZR (k + 1))) as [G|G]; [exact G|]. exfalso.
      apply clip_mono in G. rewrite clip_int in G by lia. rewrite <- K in G. rewrite plus_IZR in G. lra.
  - intros num Hn Hv. assert (G : key q < IZR num).
    { rewrite K. apply clip_below; [exact Pr|]. apply Rmult_lt_reg_r with (B2R e1); [exact P1|]. unfold Rdiv. rewrite Rmult_assoc, Rinv_l by lra. lra. }
    assert (Zn : (Zfloor (key q) < num)%Z). { apply lt_IZR. pose proof (Zfloor_lb (key q)). lra. }
    destruct I as [I|(_ & I)]; [lia|]. exfalso. rewrite I in G.
    assert (IZR num <= IZR (2 ^ 53)) by (apply IZR_le; lia). replace (IZR (2 ^ 53)) with (bpow radix2 53) in H by (cbn; lra).
    assert (bpow radix2 53 < bpow radix2 emax) by (apply bpow_lt; reflexivity). lra.
Qed.
