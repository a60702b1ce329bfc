(** * ProofsFaster.v - faster projectiles deflect less (C125) *)
From Coquelicot Require Import Coquelicot.
From Coq Require Import ZArith List Bool Lia Reals Lra.
From Verif Require Import Num ModelTypes ModelConsts ModelInteractions ModelBca ProofsBase NumR SpecR SpecCollision SpecAngle
  ProofsInteractions ProofsNewton ProofsCollision PropertiesCollision ProofsAngle ProofsQuad ProofsMonotone.
Import ListNotations.
Open Scope nat_scope.
Open Scope R_scope.

(** ** lower bounds of the exponential *)
Lemma exp_ge2 s : 0 <= s -> 1 + s + s * s / 2 <= exp s.
Proof.
  intros [Hs| <-]; [|rewrite exp_0; lra].
  assert (D : forall y, 0 <= y <= s -> derivable_pt_lim (fun y => exp y - (1 + y + y * y / 2)) y (exp y - (1 + y))).
  { intros y _. apply is_derive_Reals. auto_derive; [exact I|]. field. }
  destruct (MVT_cor2 _ _ 0 s Hs D) as (y & Q & Hy). pose proof (exp_ineq1_le y). rewrite exp_0 in Q.
  assert (0 <= (exp y - (1 + y)) * (s - 0)) by (apply Rmult_le_pos; lra). lra.
Qed.
Lemma exp_32 s : 0 <= s -> (1 + s + s * s / 2) ^ 32 <= exp (32 * s).
Proof.
  intro Hs. replace (exp (32 * s)) with (exp s ^ 32).
  - apply pow_incr. split; [|apply exp_ge2; exact Hs]. assert (0 <= s * s) by (apply Rmult_le_pos; assumption). lra.
  - replace (32 * s) with (INR 32 * s) by (simpl; lra). generalize 32%nat. induction n as [|n IH]; [cbn [pow INR]; rewrite Rmult_0_l, exp_0; reflexivity|].
    rewrite S_INR. replace ((INR n + 1) * s) with (s + INR n * s) by ring. rewrite exp_plus, <- IH. reflexivity.
Qed.
(** e^c >= B gives e^t >= B (1 + (t - c)) for all t and B (1 + (t-c) + (t-c)^2/2) beyond c *)
Lemma exp_at c B t : 0 < B -> B <= exp c -> B * (1 + (t - c)) <= exp t \/ 1 + (t - c) < 0.
Proof.
  intros HB Hc. destruct (Rlt_le_dec (1 + (t - c)) 0) as [L|L]; [right; exact L|left].
  replace (exp t) with (exp c * exp (t - c)) by (rewrite <- exp_plus; f_equal; ring).
  pose proof (exp_ineq1_le (t - c)). apply Rmult_le_compat; lra.
Qed.
Lemma exp_at2 c B t : 0 < B -> B <= exp c -> c <= t -> B * (1 + (t - c) + (t - c) * (t - c) / 2) <= exp t.
Proof.
  intros HB Hc L. replace (exp t) with (exp c * exp (t - c)) by (rewrite <- exp_plus; f_equal; ring).
  pose proof (exp_ge2 (t - c) ltac:(lra)). assert (0 <= (t - c) * (t - c)) by (apply Rmult_le_pos; lra). apply Rmult_le_compat; lra.
Qed.
Definition dominated (lam C : R) : Prop := forall t, 0 <= t -> t * t / 2 - (15 / 10 + 3 * lam) * t - 2 <= C * exp t.
Lemma dominated_0 : dominated 0 (214 / 10000).
Proof.
  intros t Ht. assert (E5 : 145 <= exp 5).
  { pose proof (exp_32 (5 / 32) ltac:(lra)) as H. replace (32 * (5 / 32)) with 5 in H by lra. lra. }
  destruct (Rle_lt_dec 5 t) as [L|L].
  - pose proof (exp_at2 5 145 t ltac:(lra) E5 L). assert (0 <= (t - 5) * (t - 5)) by (apply Rle_0_sqr).
    assert (0 <= (t - 5 - 2 / 10) * (t - 5 - 2 / 10)) by (apply Rle_0_sqr). lra.
  - destruct (Rle_lt_dec t 4) as [M|M].
    + pose proof (exp_pos t). assert (0 <= (4 - t) * (t + 1)) by (apply Rmult_le_pos; lra). lra.
    + destruct (exp_at 5 145 t ltac:(lra) E5) as [H|H]; [|lra]. assert (0 <= (t - 4) * (5 - t)) by (apply Rmult_le_pos; lra). lra.
Qed.
Lemma dominated_lj : dominated (247 / 1000) (75 / 10000).
Proof.
  intros t Ht. assert (E6 : 390 <= exp 6).
  { pose proof (exp_32 (6 / 32) ltac:(lra)) as H. replace (32 * (6 / 32)) with 6 in H by lra. lra. }
  destruct (Rle_lt_dec 6 t) as [L|L].
  - pose proof (exp_at2 6 390 t ltac:(lra) E6 L). assert (0 <= (t - 6 - 4 / 10) * (t - 6 - 4 / 10)) by (apply Rle_0_sqr). assert (0 <= (t - 6 - 5 / 10) * (t - 6 - 5 / 10)) by (apply Rle_0_sqr). lra.
  - destruct (Rle_lt_dec t 5) as [M|M].
    + pose proof (exp_pos t). assert (0 <= (5 - t) * t) by (apply Rmult_le_pos; lra). lra.
    + destruct (exp_at 6 390 t ltac:(lra) E6) as [H|H]; [|lra]. assert (0 <= (t - 5) * (6 - t)) by (apply Rmult_le_pos; lra). lra.
Qed.

(** ** x^2 (1 + x |phi'| / phi) grows with x *)
Definition ddexpsum (l : list (R * R)) (x : R) : R := Rsum (map (fun ck => snd ck * snd ck * fst ck * exp (- snd ck * x)) l).
Lemma dexpsum_deriv l x : is_derive (dexpsum l) x (ddexpsum l x).
Proof.
  induction l as [|[c k] l IH].
  - unfold ddexpsum, dexpsum; cbn. apply (is_derive_const (V := R_NormedModule) 0).
  - apply (is_derive_ext (fun x => plus (- k * c * exp (- k * x)) (dexpsum l x))); [reflexivity|].
    change (ddexpsum ((c, k) :: l) x) with (plus (k * k * c * exp (- k * x)) (ddexpsum l x)).
    apply (is_derive_plus (V := R_NormedModule)); [|exact IH]. auto_derive; [exact I|]. ring.
Qed.
Definition spread_bounded (l : list (R * R)) : Prop := forall x, 0 <= x ->
  x * x * (expsum l x * ddexpsum l x - dexpsum l x * dexpsum l x) <= 2 * (expsum l x * expsum l x) - 3 * x * expsum l x * dexpsum l x.
(** the contribution of two of the exponentials *)
Lemma pair_bound ci di cj dj x lam C sg : 0 < ci -> 0 < cj -> 0 <= di -> di <= dj -> 0 <= x -> 0 <= C -> dominated lam C ->
  lam * (dj - di) <= di -> C * cj <= sg * ci ->
  - (sg * (ci * exp (- di * x) * (ci * exp (- di * x)) * (2 + 3 * (x * di)))) <=
  ci * exp (- di * x) * (cj * exp (- dj * x)) * (4 + 3 * (x * di + x * dj) - (x * dj - x * di) * (x * dj - x * di)).
Proof.
  intros Hci Hcj Hdi Hd Hx HC HD Hl Hs. pose proof (exp_pos (- di * x)) as Pi. pose proof (exp_pos (- dj * x)) as Pj.
  set (t := x * dj - x * di). assert (Ht : 0 <= t) by (unfold t; pose proof (Rmult_le_compat_l x di dj Hx Hd); lra).
  assert (Et : exp (- dj * x) * exp t = exp (- di * x)) by (rewrite <- exp_plus; f_equal; unfold t; ring).
  pose proof (HD t Ht) as K. set (ei := exp (- di * x)) in *. set (ej := exp (- dj * x)) in *.
  assert (Lt : lam * t <= x * di). { replace (lam * t) with (x * (lam * (dj - di))) by (unfold t; ring). apply Rmult_le_compat_l; assumption. }
  assert (Q : - (4 + 3 * (x * di + x * dj) - t * t) <= 2 * (C * exp t)). { replace (x * dj) with (t + x * di) by (unfold t; ring). lra. }
  assert (W : 0 < ci * ei * (cj * ej)) by (apply Rmult_lt_0_compat; apply Rmult_lt_0_compat; assumption).
  pose proof (Rmult_le_compat_l _ _ _ (Rlt_le _ _ W) Q) as M.
  replace (ci * ei * (cj * ej) * (2 * (C * exp t))) with (2 * (C * cj) * (ci * (ei * (ej * exp t)))) in M by ring. rewrite Et in M.
  assert (P2 : 0 <= ci * (ei * ei)) by (apply Rmult_le_pos; [lra|apply Rmult_le_pos; lra]).
  pose proof (Rmult_le_compat_r _ _ _ P2 Hs) as M2.
  assert (S0 : 0 <= sg). { assert (0 <= C * cj) by (apply Rmult_le_pos; lra). apply Rnot_lt_le. intro N. pose proof (Rmult_lt_compat_r ci sg 0 Hci N). lra. }
  assert (X0 : 0 <= x * di) by (apply Rmult_le_pos; assumption).
  assert (P3 : 0 <= sg * (ci * ei * (ci * ei)) * (x * di)).
  { apply Rmult_le_pos; [|exact X0]. apply Rmult_le_pos; [exact S0|apply Rle_0_sqr]. }
  lra.
Qed.
Lemma spread3 c1 d1 c2 d2 c3 d3 lam C s12 s13 s23 : 0 < c1 -> 0 < c2 -> 0 < c3 -> 0 <= d1 -> d1 <= d2 -> d2 <= d3 -> 0 <= C -> 0 <= lam ->
  dominated lam C -> lam * (d3 - d1) <= d1 -> lam * (d3 - d2) <= d2 ->
  C * c2 <= s12 * c1 -> C * c3 <= s13 * c1 -> C * c3 <= s23 * c2 -> s12 + s13 <= 1 -> s23 <= 1 -> spread_bounded [(c1, d1); (c2, d2); (c3, d3)].
Proof.
  intros H1 H2 H3 D0 D12 D23 HC HL HD L1 L2 S12 S13 S23 T1 T2 x Hx.
  assert (L1' : lam * (d2 - d1) <= d1) by (pose proof (Rmult_le_compat_l lam (d2 - d1) (d3 - d1) HL ltac:(lra)); lra).
  pose proof (pair_bound c1 d1 c2 d2 x lam C s12 H1 H2 D0 D12 Hx HC HD L1' S12) as P12.
  pose proof (pair_bound c1 d1 c3 d3 x lam C s13 H1 H3 D0 ltac:(lra) Hx HC HD L1 S13) as P13.
  pose proof (pair_bound c2 d2 c3 d3 x lam C s23 H2 H3 ltac:(lra) D23 Hx HC HD L2 S23) as P23.
  unfold expsum, dexpsum, ddexpsum, Rsum; cbn [map fold_right fst snd].
  pose proof (exp_pos (- d1 * x)). pose proof (exp_pos (- d2 * x)). pose proof (exp_pos (- d3 * x)).
  set (e1 := exp (- d1 * x)) in *. set (e2 := exp (- d2 * x)) in *. set (e3 := exp (- d3 * x)) in *.
  assert (Q : forall c e d, 0 <= d -> 0 <= c * e * (c * e) * (2 + 3 * (x * d))).
  { intros c e d Hd. apply Rmult_le_pos; [apply Rle_0_sqr|]. assert (0 <= x * d) by (apply Rmult_le_pos; assumption). lra. }
  pose proof (Q c1 e1 d1 D0) as Q1. pose proof (Q c2 e2 d2 ltac:(lra)) as Q2. pose proof (Q c3 e3 d3 ltac:(lra)) as Q3.
  pose proof (Rmult_le_compat_r _ _ _ Q1 T1) as R1. pose proof (Rmult_le_compat_r _ _ _ Q2 T2) as R2. lra.
Qed.
Lemma spread4 c1 d1 c2 d2 c3 d3 c4 d4 C s12 s13 s14 s23 s24 s34 : 0 < c1 -> 0 < c2 -> 0 < c3 -> 0 < c4 -> 0 <= d1 -> d1 <= d2 -> d2 <= d3 -> d3 <= d4 -> 0 <= C ->
  dominated 0 C -> C * c2 <= s12 * c1 -> C * c3 <= s13 * c1 -> C * c4 <= s14 * c1 -> C * c3 <= s23 * c2 -> C * c4 <= s24 * c2 -> C * c4 <= s34 * c3 ->
  s12 + s13 + s14 <= 1 -> s23 + s24 <= 1 -> s34 <= 1 -> spread_bounded [(c1, d1); (c2, d2); (c3, d3); (c4, d4)].
Proof.
  intros H1 H2 H3 H4 D0 D12 D23 D34 HC HD S12 S13 S14 S23 S24 S34 T1 T2 T3 x Hx.
  pose proof (pair_bound c1 d1 c2 d2 x 0 C s12 H1 H2 D0 D12 Hx HC HD ltac:(lra) S12) as P12.
  pose proof (pair_bound c1 d1 c3 d3 x 0 C s13 H1 H3 D0 ltac:(lra) Hx HC HD ltac:(lra) S13) as P13.
  pose proof (pair_bound c1 d1 c4 d4 x 0 C s14 H1 H4 D0 ltac:(lra) Hx HC HD ltac:(lra) S14) as P14.
  pose proof (pair_bound c2 d2 c3 d3 x 0 C s23 H2 H3 ltac:(lra) D23 Hx HC HD ltac:(lra) S23) as P23.
  pose proof (pair_bound c2 d2 c4 d4 x 0 C s24 H2 H4 ltac:(lra) ltac:(lra) Hx HC HD ltac:(lra) S24) as P24.
  pose proof (pair_bound c3 d3 c4 d4 x 0 C s34 H3 H4 ltac:(lra) D34 Hx HC HD ltac:(lra) S34) as P34.
  unfold expsum, dexpsum, ddexpsum, Rsum; cbn [map fold_right fst snd].
  set (e1 := exp (- d1 * x)) in *. set (e2 := exp (- d2 * x)) in *. set (e3 := exp (- d3 * x)) in *. set (e4 := exp (- d4 * x)) in *.
  assert (Q : forall c e d, 0 <= d -> 0 <= c * e * (c * e) * (2 + 3 * (x * d))).
  { intros c e d Hd. apply Rmult_le_pos; [apply Rle_0_sqr|]. assert (0 <= x * d) by (apply Rmult_le_pos; assumption). lra. }
  pose proof (Q c1 e1 d1 D0) as Q1. pose proof (Q c2 e2 d2 ltac:(lra)) as Q2. pose proof (Q c3 e3 d3 ltac:(lra)) as Q3. pose proof (Q c4 e4 d4 ltac:(lra)) as Q4.
  pose proof (Rmult_le_compat_r _ _ _ Q1 T1) as R1. pose proof (Rmult_le_compat_r _ _ _ Q2 T2) as R2. pose proof (Rmult_le_compat_r _ _ _ Q3 T3) as R3.
  clear - P12 P13 P14 P23 P24 P34 R1 R2 R3 Q4. lra.
Qed.
Lemma screening_spread ip : screened ip -> spread_bounded (screening_terms ip).
Proof.
  pose proof dominated_0 as D0. pose proof dominated_lj as D1.
  destruct ip; cbn [screened screening_terms]; intro H; try destruct H.
  all: first [ apply (spread3 _ _ _ _ _ _ 0 (214 / 10000) (1 / 2) (1 / 2) 1); (assumption || lra)
             | apply (spread4 _ _ _ _ _ _ _ _ (214 / 10000) (22 / 100) (40 / 100) (15 / 100) (1 / 2) (1 / 2) 1); (assumption || lra)
             | apply (spread3 _ _ _ _ _ _ (247 / 1000) (75 / 10000) (2 / 10) (6 / 10) 1); (assumption || lra) ].
Qed.
Definition growth (l : list (R * R)) (x : R) : R := x * x - x * x * x * dexpsum l x / expsum l x.
Lemma growth_le l x y : pos_terms l -> spread_bounded l -> 0 < x -> x <= y -> growth l x <= growth l y.
Proof.
  intros Hl HA Hx [Hxy| <-]; [|apply Rle_refl].
  set (g' := fun z => 2 * z - 3 * (z * z) * dexpsum l z / expsum l z
    - z * z * z * (ddexpsum l z * expsum l z - dexpsum l z * dexpsum l z) / (expsum l z * expsum l z)).
  assert (D : forall z, x <= z <= y -> derivable_pt_lim (growth l) z (g' z)).
  { intros z Hz. apply is_derive_Reals. pose proof (expsum_pos l z Hl) as HP.
    assert (Df : is_derive (expsum l) z (dexpsum l z)) by (apply is_derive_Reals, expsum_deriv). pose proof (dexpsum_deriv l z) as Dd.
    unfold growth, g'. auto_derive.
    - repeat split; [exists (ddexpsum l z); exact Dd|exists (dexpsum l z); exact Df|lra].
    - replace (Derive (fun x : R => expsum l x) z) with (dexpsum l z) by (symmetry; apply is_derive_unique; exact Df).
      replace (Derive (fun x : R => dexpsum l x) z) with (ddexpsum l z) by (symmetry; apply is_derive_unique; exact Dd). field. lra. }
  destruct (MVT_cor2 _ _ x y Hxy D) as (z & Q & Hz). pose proof (expsum_pos l z Hl) as HP.
  assert (N : 0 <= g' z).
  { pose proof (HA z ltac:(lra)) as K.
    replace (g' z) with (z * (2 * (expsum l z * expsum l z) - 3 * z * expsum l z * dexpsum l z - z * z * (expsum l z * ddexpsum l z - dexpsum l z * dexpsum l z)) / (expsum l z * expsum l z)) by (unfold g'; field; lra).
    apply Rmult_le_pos; [apply Rmult_le_pos; lra|]. apply Rlt_le, Rinv_0_lt_compat, Rmult_lt_0_compat; assumption. }
  assert (0 <= g' z * (y - x)) by (apply Rmult_le_pos; lra). lra.
Qed.

(** ** the relative drop from r to c r, times r squared, grows with r *)
Lemma exp_chord th L : 0 <= th <= 1 -> th * (1 - exp (- L)) <= 1 - exp (- (th * L)).
Proof.
  intro Ht. set (z0 := - (th * L)).
  assert (T : forall z, exp z0 * (1 + (z - z0)) <= exp z).
  { intro z. replace (exp z) with (exp z0 * exp (z - z0)) by (rewrite <- exp_plus; f_equal; ring). pose proof (exp_ineq1_le (z - z0)).
    apply Rmult_le_compat_l; [apply Rlt_le, exp_pos|lra]. }
  pose proof (T (- L)) as T1. pose proof (T 0) as T2. rewrite exp_0 in T2.
  pose proof (Rmult_le_compat_l th _ _ (proj1 Ht) T1) as M1. pose proof (Rmult_le_compat_l (1 - th) _ _ ltac:(lra) T2) as M2.
  assert (Q : th * (exp z0 * (1 + (- L - z0))) + (1 - th) * (exp z0 * (1 + (0 - z0))) = exp z0) by (unfold z0; ring). lra.
Qed.
Definition steepening (V : R -> R) : Prop := forall c r s, 1 <= c -> 0 < r -> r < s ->
  r * r * (1 - V (c * r) / V r) <= s * s * (1 - V (c * s) / V s).
Lemma expsum_steepening l c x y : pos_terms l -> spread_bounded l -> 1 <= c -> 0 < x -> x < y ->
  x * x * (1 - expsum l (c * x) / (c * expsum l x)) <= y * y * (1 - expsum l (c * y) / (c * expsum l y)).
Proof.
  intros Hl HA Hc Hx Hxy.
  set (L := fun x c => ln c + ln (expsum l x) - ln (expsum l (c * x))).
  assert (EL : forall z, 0 < z -> expsum l (c * z) / (c * expsum l z) = exp (- L z c)).
  { intros z Hz. pose proof (expsum_pos l z Hl). pose proof (expsum_pos l (c * z) Hl).
    unfold L. replace (- (ln c + ln (expsum l z) - ln (expsum l (c * z)))) with (ln (expsum l (c * z)) + (- ln c + - ln (expsum l z))) by ring.
    rewrite !exp_plus, !exp_Ropp, !exp_ln by lra. field. lra. }
  assert (HL : x * x * L x c <= y * y * L y c).
  { destruct Hc as [Hc| <-].
    2:{ unfold L. rewrite !Rmult_1_l, ln_1. assert (E : forall q, 0 + q - q = 0) by (intro; ring). rewrite !E. lra. }
    set (h := fun c => y * y * L y c - x * x * L x c).
    set (h' := fun c => (growth l (c * y) - growth l (c * x)) / (c * c * c)).
    assert (D : forall z, 1 <= z <= c -> derivable_pt_lim h z (h' z)).
    { intros z Hz. apply is_derive_Reals.
      assert (G : forall w, 0 < w -> is_derive (fun c => ln (expsum l (c * w))) z (w * dexpsum l (z * w) / expsum l (z * w))).
      { intros w Hw. pose proof (expsum_pos l (z * w) Hl) as HP.
        assert (Df : is_derive (expsum l) (z * w) (dexpsum l (z * w))) by (apply is_derive_Reals, expsum_deriv).
        auto_derive; [repeat split; [exists (dexpsum l (z * w)); exact Df|exact HP]|].
        replace (Derive (fun x : R => expsum l x) (z * w)) with (dexpsum l (z * w)) by (symmetry; apply is_derive_unique; exact Df). field. lra. }
      pose proof (G y ltac:(lra)) as Gy. pose proof (G x Hx) as Gx.
      unfold h, L. auto_derive.
      - repeat split; try lra; try (apply expsum_pos; exact Hl); exists (dexpsum l (z * y)) + exists (dexpsum l (z * x)); apply is_derive_Reals, expsum_deriv.
      - replace (Derive (fun x : R => expsum l x) (z * y)) with (dexpsum l (z * y)) by (symmetry; apply is_derive_unique, is_derive_Reals, expsum_deriv).
        replace (Derive (fun x : R => expsum l x) (z * x)) with (dexpsum l (z * x)) by (symmetry; apply is_derive_unique, is_derive_Reals, expsum_deriv).
        pose proof (expsum_pos l (z * x) Hl). pose proof (expsum_pos l (z * y) Hl). unfold h', growth. field. repeat split; lra. }
    destruct (MVT_cor2 h h' 1 c Hc D) as (z & Q & Hz).
    assert (N : 0 <= h' z).
    { unfold h'. apply Rmult_le_pos; [|apply Rlt_le, Rinv_0_lt_compat; apply Rmult_lt_0_compat; [apply Rmult_lt_0_compat|]; lra].
      assert (growth l (z * x) <= growth l (z * y)); [|lra]. apply growth_le; try assumption; [apply Rmult_lt_0_compat; lra|]. apply Rmult_le_compat_l; lra. }
    assert (0 <= h' z * (c - 1)) by (apply Rmult_le_pos; lra).
    assert (E1 : h 1 = 0). { unfold h, L. rewrite !Rmult_1_l, ln_1. ring. }
    rewrite E1 in Q. unfold h in Q. lra. }
  rewrite !EL by lra. assert (Y2 : 0 < y * y) by (apply Rmult_lt_0_compat; lra). assert (X2 : 0 < x * x) by (apply Rmult_lt_0_compat; lra).
  assert (XY : x * x <= y * y) by (apply Rmult_le_compat; lra).
  set (th := x * x / (y * y)). assert (T : 0 <= th <= 1).
  { unfold th. split; [apply Rlt_le, Rdiv_lt_0_compat; assumption|]. apply (Rmult_le_reg_r (y * y)); [exact Y2|]. unfold Rdiv. rewrite Rmult_assoc, Rinv_l by lra. lra. }
  pose proof (exp_chord th (L x c) T) as K.
  assert (LE : th * L x c <= L y c).
  { apply (Rmult_le_reg_l (y * y)); [exact Y2|]. replace (y * y * (th * L x c)) with (x * x * L x c) by (unfold th; field; lra). exact HL. }
  assert (M : exp (- L y c) <= exp (- (th * L x c))).
  { destruct LE as [LE|LE]; [apply Rlt_le, exp_increasing; lra|rewrite LE; apply Rle_refl]. }
  replace (x * x) with (y * y * th) by (unfold th; field; lra). rewrite Rmult_assoc. apply Rmult_le_compat_l; [lra|]. lra.
Qed.
Lemma screened_steepening Za Zb ip V : screened ip -> 0 < Za -> 0 < Zb -> is_potential (screening_length Za Zb ip) Za Zb ip V -> steepening V.
Proof.
  intros Hs Ha Hb HV c r s Hc Hr Hrs. set (a := screening_length Za Zb ip) in *. pose proof (screening_length_pos Za Zb ip Hs Ha Hb) as HA. fold a in HA.
  pose proof (sc_K Za Zb Ha Hb) as HK. set (K := Za * Zb * cQ * cQ / 4 / PI / cEPS0) in *.
  assert (U : forall r, V r = K / r * expsum (screening_terms ip) (r / a)) by (intro q; apply (potential_unique a Za Zb ip V Hs HV)).
  assert (Q : forall r, 0 < r -> r * r * (1 - V (c * r) / V r) = a * a * (r / a * (r / a) * (1 - expsum (screening_terms ip) (c * (r / a)) / (c * expsum (screening_terms ip) (r / a))))).
  { intros q Hq. rewrite !U. replace (c * q / a) with (c * (q / a)) by (field; lra). pose proof (expsum_pos _ (q / a) (screening_terms_pos ip Hs)). field. repeat split; lra. }
  rewrite !Q by lra. apply Rmult_le_compat_l; [apply Rlt_le, Rmult_lt_0_compat; assumption|].
  apply expsum_steepening; [apply screening_terms_pos; exact Hs|apply screening_spread; exact Hs|exact Hc|apply Rdiv_lt_0_compat; assumption|].
  apply Rmult_lt_compat_r; [apply Rinv_0_lt_compat; exact HA|exact Hrs].
Qed.
Lemma coulomb_steepening K V : 0 < K -> (forall r, 0 < r -> V r = K / r) -> steepening V.
Proof.
  intros HK U c r s Hc Hr Hrs. assert (0 < c * r) by (apply Rmult_lt_0_compat; lra). assert (0 < c * s) by (apply Rmult_lt_0_compat; lra). rewrite !U by lra.
  replace (K / (c * r) / (K / r)) with (/ c) by (field; lra). replace (K / (c * s) / (K / s)) with (/ c) by (field; lra).
  assert (/ c <= 1). { rewrite <- Rinv_1. apply Rinv_le_contravar; lra. }
  apply Rmult_le_compat_r; [lra|]. apply Rmult_le_compat; lra.
Qed.

(** ** one impact parameter, two energies *)
Section Faster.
  Context (V : R -> R) (HV : repulsive V) (HS : steepening V) (p E1 E2 r1 r2 : R).
  Context (Hp : 0 < p) (HE1 : 0 < E1) (HE : E1 < E2) (R1 : 0 < r1) (R2 : 0 < r2).
  Context (T1 : turning_point V E1 p r1) (T2 : turning_point V E2 p r2).
  Lemma fa_order : r2 < r1.
  Proof.
    destruct (Rlt_le_dec r2 r1) as [L|L]; [exact L|exfalso].
    apply turn_sq in T1; [|exact R1]. apply turn_sq in T2; [|exact R2].
    assert (D : V r2 <= V r1). { destruct L as [L| <-]; [apply Rlt_le, HV; assumption|lra]. }
    assert (P2 : 0 < V r2) by (apply HV; exact R2).
    assert (D1 : V r2 / E2 < V r1 / E1).
    { unfold Rdiv. assert (/ E2 < / E1) by (apply Rinv_lt_contravar; [apply Rmult_lt_0_compat; lra|exact HE]).
      pose proof (Rmult_lt_compat_l _ _ _ P2 H). pose proof (Rmult_le_compat_r (/ E1) _ _ (Rlt_le _ _ (Rinv_0_lt_compat _ HE1)) D). lra. }
    assert (I : / r2 <= / r1) by (apply Rinv_le_contravar; lra).
    assert (B : p / r2 <= p / r1) by (unfold Rdiv; apply Rmult_le_compat_l; lra).
    assert (0 < p / r2) by (apply Rdiv_lt_0_compat; lra).
    pose proof (Rmult_le_compat _ _ _ _ (Rlt_le _ _ H) (Rlt_le _ _ H) B B). lra.
  Qed.
  Lemma fa_b : p / r1 < p / r2.
  Proof. unfold Rdiv. apply Rmult_lt_compat_l; [exact Hp|]. apply Rinv_lt_contravar; [apply Rmult_lt_0_compat; assumption|exact fa_order]. Qed.
  Lemma fa_b0 : 0 < p / r1. Proof. apply Rdiv_lt_0_compat; assumption. Qed.
  (** 1 - (p/r)^2 > 0 *)
  Lemma fa_s2 : 0 < 1 - p / r2 * (p / r2).
  Proof.
    rewrite (turn_sq V E2 p r2 R2 T2). assert (0 < V r2 / E2) by (apply Rdiv_lt_0_compat; [apply HV; exact R2|lra]). lra.
  Qed.
  Lemma fa_form E r u : 0 < E -> 0 < r -> turning_point V E p r -> 0 < u < 1 ->
    radial V E p r u * (r * r) = p * p * (1 - u * u) + r * r * (1 - V (/ u * r) / V r) * (1 - p / r * (p / r)).
  Proof.
    intros He Hr Ht Hu. apply turn_sq in Ht; [|exact Hr]. unfold radial. replace (r / u) with (/ u * r) by (field; lra).
    assert (HVr : 0 < V r) by (apply HV; exact Hr).
    assert (Q : V (/ u * r) / E = V (/ u * r) / V r * (1 - p / r * (p / r))) by (rewrite Ht; field; lra). rewrite Q. field. lra.
  Qed.
  Lemma fa_drop r u : 0 < r -> 0 < u < 1 -> 0 < r * r * (1 - V (/ u * r) / V r).
  Proof.
    intros Hr Hu. apply Rmult_lt_0_compat; [apply Rmult_lt_0_compat; exact Hr|].
    destruct (rep_far V 1 ltac:(lra) HV r u Hr Hu) as (F & _). replace (r / u) with (/ u * r) in F by (field; lra). unfold Rdiv in F. rewrite Rinv_1, !Rmult_1_r in F.
    assert (HVr : 0 < V r) by (apply HV; exact Hr).
    assert (V (/ u * r) / V r < 1); [|lra]. apply (Rmult_lt_reg_r (V r)); [exact HVr|]. unfold Rdiv. rewrite Rmult_assoc, Rinv_l by lra. lra.
  Qed.
  Lemma fa_term u : 0 < u < 1 -> p / r1 / sqrt (radial V E1 p r1 u) < p / r2 / sqrt (radial V E2 p r2 u).
  Proof.
    intro Hu. pose proof fa_order as L. pose proof fa_b as B. pose proof fa_b0 as B0. pose proof fa_s2 as S2.
    pose proof (rep_radial V E1 HE1 HV p r1 u ltac:(lra) R1 T1 Hu) as D1. pose proof (rep_radial V E2 ltac:(lra) HV p r2 u ltac:(lra) R2 T2 Hu) as D2.
    assert (Form : forall E r, 0 < r -> 0 < radial V E p r u -> p / r / sqrt (radial V E p r u) = p / sqrt (radial V E p r u * (r * r))).
    { intros E r Hr Hd. pose proof (sqrt_lt_R0 _ Hd). rewrite sqrt_mult by (try apply Rle_0_sqr; lra). rewrite sqrt_square by lra. field. lra. }
    rewrite !Form by assumption.
    assert (G2 : 0 < radial V E2 p r2 u * (r2 * r2)) by (apply Rmult_lt_0_compat; [exact D2|apply Rmult_lt_0_compat; exact R2]).
    assert (G : radial V E2 p r2 u * (r2 * r2) < radial V E1 p r1 u * (r1 * r1)).
    { rewrite (fa_form E1 r1 u HE1 R1 T1 Hu), (fa_form E2 r2 u ltac:(lra) R2 T2 Hu). apply Rplus_lt_compat_l.
      assert (C : 1 <= / u). { rewrite <- Rinv_1. apply Rinv_le_contravar; lra. }
      pose proof (HS (/ u) r2 r1 C R2 L) as K. pose proof (fa_drop r1 u R1 Hu) as F1. pose proof (fa_drop r2 u R2 Hu) as F2.
      assert (BB : p / r1 * (p / r1) < p / r2 * (p / r2)) by (apply Rmult_le_0_lt_compat; lra).
      set (f1 := r1 * r1 * _) in *. set (f2 := r2 * r2 * _) in *. set (b1 := p / r1 * (p / r1)) in *. set (b2 := p / r2 * (p / r2)) in *.
      pose proof (Rmult_le_compat_r (1 - b2) f2 f1 (Rlt_le _ _ S2) K). pose proof (Rmult_lt_compat_l f1 (1 - b2) (1 - b1) F1 ltac:(lra)). lra. }
    unfold Rdiv. apply Rmult_lt_compat_l; [exact Hp|]. apply Rinv_lt_contravar.
    - apply Rmult_lt_0_compat; apply sqrt_lt_R0; lra.
    - apply sqrt_lt_1; lra.
  Qed.
  Lemma fa_gm n : (0 < n)%nat -> Rsum (map (gm_term p E1 r1 V n) (seq 1 n)) < Rsum (map (gm_term p E2 r2 V n) (seq 1 n)).
  Proof.
    intro Hn.
    assert (T : forall i, (1 <= i <= n)%nat -> gm_term p E1 r1 V n i < gm_term p E2 r2 V n i).
    { intros i Hi. destruct (gm_sc n i Hi) as (Hsn & Hc). unfold gm_term. apply Rmult_lt_compat_l.
      - apply Rmult_lt_0_compat; [apply Rdiv_lt_0_compat; [apply PI_RGT_0|apply lt_0_INR; exact Hn]|exact Hsn].
      - apply (fa_term _ Hc). }
    assert (G : forall l, (forall i, In i l -> (1 <= i <= n)%nat) -> Rsum (map (gm_term p E1 r1 V n) l) <= Rsum (map (gm_term p E2 r2 V n) l) /\
      (l <> [] -> Rsum (map (gm_term p E1 r1 V n) l) < Rsum (map (gm_term p E2 r2 V n) l))).
    { induction l as [|i l IH]; intros Hl; [split; [apply Rle_refl|congruence]|].
      destruct (IH (fun j Hj => Hl j (or_intror Hj))) as (I1 & _). pose proof (T i (Hl i (or_introl eq_refl))).
      cbn [map]. unfold Rsum in *. cbn [fold_right]. split; [lra|intros _; lra]. }
    apply G; [intros i Hi; apply in_seq in Hi; lia|]. destruct n; [lia|discriminate].
  Qed.
  Lemma fa_gl : rule (gl_value V E1 p r1) < rule (gl_value V E2 p r2).
  Proof.
    assert (A : forall E r u, 0 < E -> 0 < r -> turning_point V E p r -> 0 < u < 1 ->
      gl_value V E p r u = 4 * u * (p / r / sqrt (radial V E p r (1 - u * u)))).
    { intros E r u He Hr Ht Hu. unfold gl_value.
      replace (1 - V (r / (1 - u * u)) / E - p * p * ((1 - u * u) * (1 - u * u)) / r / r) with (radial V E p r (1 - u * u)) by (unfold radial; field; lra).
      assert (0 < u * u < 1). { split; [apply Rmult_lt_0_compat; lra|]. pose proof (Rmult_lt_compat_l u u 1 ltac:(lra) ltac:(lra)). lra. }
      pose proof (sqrt_lt_R0 _ (rep_radial V E He HV p r (1 - u * u) (Rlt_le _ _ Hp) Hr Ht ltac:(lra))). field. lra. }
    assert (T : forall u, 0 < u < 1 -> gl_value V E1 p r1 u < gl_value V E2 p r2 u).
    { intros u Hu. rewrite (A E1 r1), (A E2 r2) by (assumption || lra). apply Rmult_lt_compat_l; [lra|].
      assert (0 < u * u < 1). { split; [apply Rmult_lt_0_compat; lra|]. pose proof (Rmult_lt_compat_l u u 1 ltac:(lra) ltac:(lra)). lra. }
      apply fa_term. lra. }
    unfold rule. pose proof (T (1 / 2) ltac:(lra)). pose proof (T (461531 / 2000000) ltac:(lra)). pose proof (T (1538469 / 2000000) ltac:(lra)).
    pose proof (T (9382 / 200000) ltac:(lra)). pose proof (T (190618 / 200000) ltac:(lra)). lra.
  Qed.
End Faster.
Lemma ratio_root b1 b2 m1 m2 : 0 < b1 -> 0 < b2 -> 0 < m1 -> 0 < m2 -> b1 * b1 * m2 < b2 * b2 * m1 -> b1 * / sqrt m1 < b2 * / sqrt m2.
Proof.
  intros B1 B2 M1 M2 H. pose proof (sqrt_lt_R0 _ M1) as S1. pose proof (sqrt_lt_R0 _ M2) as S2. apply Rnot_le_lt. intro K.
  assert (K' : b2 * sqrt m1 <= b1 * sqrt m2).
  { apply (Rmult_le_compat_r (sqrt m1 * sqrt m2)) in K; [|apply Rlt_le, Rmult_lt_0_compat; assumption].
    replace (b2 * / sqrt m2 * (sqrt m1 * sqrt m2)) with (b2 * sqrt m1) in K by (field; lra).
    replace (b1 * / sqrt m1 * (sqrt m1 * sqrt m2)) with (b1 * sqrt m2) in K by (field; lra). exact K. }
  assert (P : 0 <= b2 * sqrt m1) by (apply Rlt_le, Rmult_lt_0_compat; lra).
  pose proof (Rmult_le_compat _ _ _ _ P P K' K') as KK.
  replace (b2 * sqrt m1 * (b2 * sqrt m1)) with (b2 * b2 * (sqrt m1 * sqrt m1)) in KK by ring.
  replace (b1 * sqrt m2 * (b1 * sqrt m2)) with (b1 * b1 * (sqrt m2 * sqrt m2)) in KK by ring. rewrite !sqrt_sqrt in KK by lra. lra.
Qed.
Section FasterMW.
  Context (Za Zb Ma Mb : R) (ip : InteractionPotential R) (V : R -> R)
    (Hs : screened ip) (Ha : 0 < Za) (Hb : 0 < Zb) (Hma : 0 < Ma) (Hmb : 0 < Mb).
  Let a := screening_length Za Zb ip.
  Context (HV : is_potential a Za Zb ip V).
  (** x^2 (1 - phi'(x) / eps) at a turning point *)
  Lemma mw_k E p x : 0 < E -> 0 < p -> 0 < x -> turning_point V E p (x * a) ->
    x * x * (1 + - dexpsum (screening_terms ip) x / reduced_energy a Za Zb E) =
    p / a * (p / a) + growth (screening_terms ip) x * (1 - p / (x * a) * (p / (x * a))).
  Proof.
    intros HE Hp Hx Ht. pose proof (sc_turn Za Zb E p x ip V Hs Ha Hb HE Hx HV Ht) as Q. fold a in Q.
    pose proof (screening_length_pos Za Zb ip Hs Ha Hb) as HA. fold a in HA.
    pose proof (reduced_energy_pos a Za Zb E HA Ha Hb HE) as He. set (e := reduced_energy a Za Zb E) in *.
    pose proof (expsum_pos _ x (screening_terms_pos ip Hs)) as HF. set (f := expsum (screening_terms ip) x) in *.
    unfold growth. fold f.
    assert (I : / e = (1 - p / (x * a) * (p / (x * a))) * x / f) by (rewrite <- Q; field; lra).
    unfold Rdiv at 1. rewrite I. field. lra.
  Qed.
  Lemma mw_faster F1 F2 p x1 x2 : 0 < F1 -> F1 < F2 -> 0 < p -> 0 < x1 -> 0 < x2 ->
    turning_point V (F1 * Mb / (Ma + Mb)) p (x1 * a) -> turning_point V (F2 * Mb / (Ma + Mb)) p (x2 * a) ->
    exists t1 t2, scattering_angle Za Zb Ma Mb F1 p x1 ip MENDENHALL_WELLER = Ok t1 /\
      scattering_angle Za Zb Ma Mb F2 p x2 ip MENDENHALL_WELLER = Ok t2 /\ 0 <= t2 /\ t2 < t1 /\ t1 <= PI.
  Proof.
    intros HF1 HF Hp X1 X2. set (E1 := F1 * Mb / (Ma + Mb)). set (E2 := F2 * Mb / (Ma + Mb)). intros T1 T2.
    assert (HE1 : 0 < E1) by (unfold E1; apply Rdiv_lt_0_compat; [apply Rmult_lt_0_compat; assumption|lra]).
    assert (HE : E1 < E2).
    { unfold E1, E2, Rdiv. apply Rmult_lt_compat_r; [apply Rinv_0_lt_compat; lra|]. apply Rmult_lt_compat_r; assumption. }
    assert (HE2 : 0 < E2) by lra.
    pose proof (screening_length_pos Za Zb ip Hs Ha Hb) as HA. fold a in HA. pose proof PI_RGT_0 as HP.
    pose proof (screened_repulsive Za Zb ip V Hs Ha Hb HV) as HR. pose proof (screened_steepening Za Zb ip V Hs Ha Hb HV) as HSt.
    assert (R1 : 0 < x1 * a) by (apply Rmult_lt_0_compat; assumption). assert (R2 : 0 < x2 * a) by (apply Rmult_lt_0_compat; assumption).
    pose proof (mw_value Za Zb E1 p x1 ip V Hs Ha Hb HE1 Hp X1 HV T1 Ma Mb F1 Hma Hmb eq_refl) as V1.
    pose proof (mw_value Za Zb E2 p x2 ip V Hs Ha Hb HE2 Hp X2 HV T2 Ma Mb F2 Hma Hmb eq_refl) as V2.
    pose proof (mw_sum_bound Za Zb E1 p x1 ip V Hs Ha Hb HE1 Hp X1 HV T1) as B1.
    pose proof (mw_sum_bound Za Zb E2 p x2 ip V Hs Ha Hb HE2 Hp X2 HV T2) as B2.
    set (q1 := p / (x1 * screening_length Za Zb ip) * mw_sum _ _) in B1, V1. set (q2 := p / (x2 * screening_length Za Zb ip) * mw_sum _ _) in B2, V2.
    exists (PI * (1 - q1)), (PI * (1 - q2)). split; [exact V1|]. split; [exact V2|].
    assert (L : q1 < q2).
    { pose proof (fa_order V HR p E1 E2 _ _ Hp HE1 HE R1 R2 T1 T2) as LX.
      pose proof (fa_b V HR p E1 E2 _ _ Hp HE1 HE R1 R2 T1 T2) as LB.
      pose proof (fa_s2 V HR p E1 E2 _ HE1 HE R2 T2) as S2.
      pose proof (fa_term V HR HSt p E1 E2 _ _ Hp HE1 HE R1 R2 T1 T2 (9072 / 10000) ltac:(lra)) as L1.
      pose proof (fa_term V HR HSt p E1 E2 _ _ Hp HE1 HE R1 R2 T1 T2 (4206 / 10000) ltac:(lra)) as L2.
      pose proof (sc_m Za Zb E1 p x1 ip Hs Ha Hb HE1) as M1. cbv zeta in M1. fold a in M1.
      pose proof (sc_m Za Zb E2 p x2 ip Hs Ha Hb HE2) as M2. cbv zeta in M2. fold a in M2.
      pose proof (mw_k E1 p x1 HE1 Hp X1 T1) as K1. pose proof (mw_k E2 p x2 HE2 Hp X2 T2) as K2.
      assert (XL : x2 < x1) by (apply (Rmult_lt_reg_r a); assumption).
      pose proof (growth_le _ x2 x1 (screening_terms_pos ip Hs) (screening_spread ip Hs) X2 (Rlt_le _ _ XL)) as GL.
      assert (G2 : 0 < growth (screening_terms ip) x2).
      { unfold growth. pose proof (dexpsum_neg _ x2 (screening_terms_pos ip Hs)). pose proof (expsum_pos _ x2 (screening_terms_pos ip Hs)).
        assert (0 < x2 * x2) by (apply Rmult_lt_0_compat; exact X2). assert (0 < x2 * x2 * x2) by (apply Rmult_lt_0_compat; assumption).
        assert (0 < x2 * x2 * x2 * - dexpsum (screening_terms ip) x2 / expsum (screening_terms ip) x2) by (apply Rdiv_lt_0_compat; [apply Rmult_lt_0_compat; lra|assumption]).
        unfold Rdiv in *. lra. }
      unfold q1, q2, mw_sum. fold a.
      set (m1 := 1 / 2 + p / (x1 * a) * (p / (x1 * a)) / 2 - _) in *. set (m2 := 1 / 2 + p / (x2 * a) * (p / (x2 * a)) / 2 - _) in *.
      assert (B0 : 0 < p / (x1 * a)) by (apply Rdiv_lt_0_compat; assumption).
      pose proof (reduced_energy_pos a Za Zb E1 HA Ha Hb HE1) as He1. pose proof (reduced_energy_pos a Za Zb E2 HA Ha Hb HE2) as He2.
      set (e1 := reduced_energy a Za Zb E1) in *. set (e2 := reduced_energy a Za Zb E2) in *.
      set (k1 := - dexpsum (screening_terms ip) x1 / e1) in *. set (k2 := - dexpsum (screening_terms ip) x2 / e2) in *.
      assert (EE1 : m1 = (1 + p / (x1 * a) * (p / (x1 * a)) + k1) / 2) by (unfold m1, k1; field; lra).
      assert (EE2 : m2 = (1 + p / (x2 * a) * (p / (x2 * a)) + k2) / 2) by (unfold m2, k2; field; lra).
      assert (BB : p / (x1 * a) * (p / (x1 * a)) < p / (x2 * a) * (p / (x2 * a))) by (apply Rmult_le_0_lt_compat; lra).
      assert (KK : x2 * x2 * (1 + k2) < x1 * x1 * (1 + k1)).
      { rewrite K1, K2. apply Rplus_lt_compat_l. pose proof (Rmult_le_compat_r _ _ _ (Rlt_le _ _ S2) GL).
        pose proof (Rmult_lt_compat_l (growth (screening_terms ip) x1) (1 - p / (x2 * a) * (p / (x2 * a))) (1 - p / (x1 * a) * (p / (x1 * a))) ltac:(lra) ltac:(lra)). lra. }
      assert (LL : p / (x1 * a) * / sqrt m1 < p / (x2 * a) * / sqrt m2).
      { assert (BP1 : 0 < p / (x1 * a) * (p / (x1 * a))) by (apply Rmult_lt_0_compat; exact B0).
        apply ratio_root; try lra. rewrite EE1, EE2.
        set (w := p / (x1 * a) * (p / (x1 * a)) * (p / (x2 * a) * (p / (x2 * a)))).
        assert (W : 0 < w) by (unfold w; apply Rmult_lt_0_compat; lra).
        assert (Q1 : p / (x1 * a) * (p / (x1 * a)) * (1 + k2) = w * (a * a / (p * p)) * (x2 * x2 * (1 + k2))) by (unfold w; field; repeat split; lra).
        assert (Q2 : p / (x2 * a) * (p / (x2 * a)) * (1 + k1) = w * (a * a / (p * p)) * (x1 * x1 * (1 + k1))) by (unfold w; field; repeat split; lra).
        assert (C : 0 < w * (a * a / (p * p))) by (apply Rmult_lt_0_compat; [exact W|apply Rdiv_lt_0_compat; apply Rmult_lt_0_compat; assumption]).
        pose proof (Rmult_lt_compat_l _ _ _ C KK) as Fin. lra. }
      unfold Rdiv in L1, L2, LL, LB. unfold Rdiv. lra. }
    split; [apply Rmult_le_pos; lra|]. split; [pose proof (Rmult_lt_compat_l PI q1 q2 HP L); lra|].
    assert (0 <= q1); [|pose proof (Rmult_le_pos PI q1 ltac:(lra) H); lra].
    assert (0 < p / (x1 * screening_length Za Zb ip)) by (fold a; apply Rdiv_lt_0_compat; assumption).
    unfold q1, mw_sum. apply Rmult_le_pos; [lra|].
    pose proof (sc_m Za Zb E1 p x1 ip Hs Ha Hb HE1) as M1. cbv zeta in M1.
    match goal with |- 0 <= / 12 * (/ sqrt ?m + 1) + _ => assert (0 < / sqrt m) end.
    { apply Rinv_0_lt_compat, sqrt_lt_R0. assert (0 < p / (x1 * screening_length Za Zb ip) * (p / (x1 * screening_length Za Zb ip))) by (apply Rmult_lt_0_compat; assumption). lra. }
    assert (Qd : forall u, 0 < u < 1 -> 0 < / sqrt (radial V E1 p (x1 * screening_length Za Zb ip) u)).
    { intros u Hu. apply Rinv_0_lt_compat, sqrt_lt_R0, rep_radial; try assumption. lra. }
    pose proof (Qd (9072 / 10000) ltac:(lra)). pose proof (Qd (4206 / 10000) ltac:(lra)). lra.
  Qed.
End FasterMW.
