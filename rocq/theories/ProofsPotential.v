(** * ProofsPotential.v - shapes of the interaction potentials in exact arithmetic *)
From Coq Require Import ZArith List Bool Lia Reals Lra.
From Verif Require Import Num ModelTypes ModelConsts ModelInteractions ProofsBase NumR SpecR SpecCollision ProofsInteractions SpecPotential.
Import ListNotations.
Open Scope R_scope.

Lemma tenpow p : IZR (10 ^ Zpos p) = 10 ^ Pos.to_nat p.
Proof. rewrite pow_IZR. f_equal. rewrite positive_nat_Z. reflexivity. Qed.
Lemma cQ_spec : (cQ : R) = elementary_charge.
Proof. unfold cQ, elementary_charge. rewrite nlit_neg, tenpow. reflexivity. Qed.
Lemma cEPS0_spec : (cEPS0 : R) = vacuum_permittivity.
Proof. unfold cEPS0, vacuum_permittivity. rewrite nlit_neg, tenpow. reflexivity. Qed.
Lemma cA0_spec : (cA0 : R) = bohr_radius.
Proof. unfold cA0, bohr_radius. rewrite nlit_neg, tenpow. reflexivity. Qed.
Lemma cANGSTROM_spec : (cANGSTROM : R) = angstrom.
Proof. unfold cANGSTROM, angstrom. rewrite nlit_neg, tenpow. reflexivity. Qed.

Lemma bare_spec Za Zb r : 0 < r -> Za * Zb * cQ * cQ / 4 / PI / cEPS0 / r = bare_coulomb Za Zb r.
Proof.
  intros H. unfold bare_coulomb. rewrite cQ_spec, cEPS0_spec. pose proof PI_RGT_0. pose proof cEPS0_pos as E. rewrite cEPS0_spec in E. field.
  repeat split; lra.
Qed.
Lemma bare_pos Za Zb r : 0 < Za -> 0 < Zb -> 0 < r -> 0 < bare_coulomb Za Zb r.
Proof.
  intros. rewrite <- bare_spec by assumption. pose proof cQ_pos. pose proof cEPS0_pos. pose proof PI_RGT_0.
  repeat apply Rdiv_lt_0_compat; try assumption; try lra. apply Rmult_lt_0_compat; [apply Rmult_lt_0_compat; [apply Rmult_lt_0_compat|]|]; assumption.
Qed.
Lemma bare_decr Za Zb r s : 0 < Za -> 0 < Zb -> 0 < r -> r < s -> bare_coulomb Za Zb s < bare_coulomb Za Zb r.
Proof.
  intros Ha Hb Hr Hs. assert (E : forall x, 0 < x -> bare_coulomb Za Zb x = bare_coulomb Za Zb 1 * / x).
  { intros x Hx. rewrite <- !bare_spec by lra. pose proof cEPS0_pos. pose proof PI_RGT_0. field. repeat split; lra. }
  rewrite (E r), (E s) by lra. apply Rmult_lt_compat_l; [apply bare_pos; lra|]. apply Rinv_lt_contravar; [apply Rmult_lt_0_compat; lra|exact Hs].
Qed.
Lemma terms_sum1 ip : screened ip -> ip <> LENZ_JENSEN -> Rsum (map fst (screening_terms ip)) = 1.
Proof. unfold Rsum. destruct ip; cbn [screened]; intros H; try destruct H; try congruence; intros _; cbn [screening_terms map fold_right fst]; lra. Qed.
Lemma terms_sum_ge1 ip : screened ip -> 1 <= Rsum (map fst (screening_terms ip)).
Proof. unfold Rsum. destruct ip; cbn [screened]; intros H; try destruct H; cbn [screening_terms map fold_right fst]; lra. Qed.

Lemma phi_lower ip x : screened ip -> 0 <= x -> 1 - 14 / 10 * x <= expsum (screening_terms ip) x.
Proof.
  intros Hs Hx. pose proof (screening_terms_pos ip Hs) as Hp. pose proof (expsum_convex _ 0 x Hp) as H. rewrite expsum_0 in H.
  pose proof (terms_sum_ge1 ip Hs). pose proof (screening_terms_slope ip Hs) as Hd.
  assert (- (14 / 10) * x <= dexpsum (screening_terms ip) 0 * (x - 0)); [|lra].
  rewrite Rminus_0_r. apply Rmult_le_compat_r; lra.
Qed.

(** ** wells *)
Lemma pow2_gt_0 x : x <> 0 -> 0 < x ^ 2.
Proof. intros H. rewrite <- Rsqr_pow2. apply Rsqr_pos_lt. exact H. Qed.
Lemma thirteen s : 12 * s ^ 13 - 13 * s ^ 12 + 1 =
  (s - 1) ^ 2 * (12 * s ^ 11 + 11 * s ^ 10 + 10 * s ^ 9 + 9 * s ^ 8 + 8 * s ^ 7 + 7 * s ^ 6 + 6 * s ^ 5 + 5 * s ^ 4 + 4 * s ^ 3 + 3 * s ^ 2 + 2 * s + 1).
Proof. ring. Qed.
Lemma thirteen_pos s : 0 < s -> s <> 1 -> 0 < 12 * s ^ 13 - 13 * s ^ 12 + 1.
Proof.
  intros H H1. rewrite thirteen. apply Rmult_lt_0_compat; [apply pow2_gt_0; lra|].
  pose proof (fun n => pow_lt s n H) as P.
  pose proof (P 11%nat); pose proof (P 10%nat); pose proof (P 9%nat); pose proof (P 8%nat); pose proof (P 7%nat); pose proof (P 6%nat);
  pose proof (P 5%nat); pose proof (P 4%nat); pose proof (P 3%nat); pose proof (P 2%nat). lra.
Qed.
Lemma well_intro (V : R -> R) rm depth : 0 < rm -> V rm = - depth -> (forall r, 0 < r -> r <> rm -> 0 < V r + depth) -> well V rm depth.
Proof. intros H1 H2 H3. split; [exact H1|split; [exact H2|]]. intros r Hr Hn. specialize (H3 r Hr Hn). lra. Qed.

Lemma morse_well D alpha r0 : 0 < D -> alpha <> 0 -> 0 < r0 -> well (fun r => morse r D alpha r0) r0 D.
Proof.
  intros HD Ha H0. assert (E : forall r, morse r D alpha r0 + D = D * (exp ((- alpha) * (r - r0)) - 1) ^ 2).
  { intros r. unfold morse. toR. replace (-2 * alpha * (r - r0)) with (- alpha * (r - r0) + - alpha * (r - r0)) by ring.
    rewrite exp_plus. ring. }
  apply well_intro; [exact H0| |].
  - enough (morse r0 D alpha r0 + D = 0) by lra. rewrite E. replace (- alpha * (r0 - r0)) with 0 by ring. rewrite exp_0. ring.
  - intros r Hr Hn. rewrite E. apply Rmult_lt_0_compat; [exact HD|]. apply pow2_gt_0. intros H.
    assert (H' : exp (- alpha * (r - r0)) = exp 0) by (rewrite exp_0; lra). apply exp_inv in H'.
    apply Rmult_integral in H'. destruct H'; [lra|]. lra.
Qed.

Lemma pow_incr_strict x y n : 0 < x -> x < y -> x ^ S n < y ^ S n.
Proof.
  intros Hx Hy. induction n as [|n IH]; [cbn; lra|]. change (x * x ^ S n < y * y ^ S n).
  apply Rmult_le_0_lt_compat; try assumption; [lra|]. apply Rlt_le. apply pow_lt. exact Hx.
Qed.
Lemma pow_inj_pos x y n : 0 < x -> 0 < y -> x ^ S n = y ^ S n -> x = y.
Proof.
  intros Hx Hy H. destruct (Rtotal_order x y) as [L|[E|L]]; [exfalso|exact E|exfalso].
  - pose proof (pow_incr_strict x y n Hx L). lra.
  - pose proof (pow_incr_strict y x n Hy L). lra.
Qed.
Lemma lj_well sigma epsilon : 0 < sigma -> 0 < epsilon ->
  well (fun r => lennard_jones r sigma epsilon) (Rpower 2 (1 / 6) * sigma) epsilon.
Proof.
  intros Hs He.
  assert (E : forall r, 0 < r -> lennard_jones r sigma epsilon + epsilon = epsilon * (2 * (sigma / r) ^ 6 - 1) ^ 2).
  { intros r Hr. assert (0 < sigma / r) by (apply Rdiv_lt_0_compat; assumption). unfold lennard_jones. toR.
    rewrite (npowf_nat (sigma / r) 12 12 eq_refl), (npowf_nat (sigma / r) 6 6 eq_refl) by assumption. ring. }
  set (t := Rpower 2 (1 / 6)). assert (Ht : 0 < t) by apply Rpower_gt0.
  assert (T6 : t ^ 6 = 2).
  { unfold t. rewrite <- Rpower_pow by apply Rpower_gt0. rewrite Rpower_mult.
    replace (1 / 6 * INR 6) with 1 by (cbn [INR]; field). apply Rpower_1. lra. }
  assert (Hm : 0 < t * sigma) by (apply Rmult_lt_0_compat; assumption).
  apply well_intro; [exact Hm| |].
  - enough (lennard_jones (t * sigma) sigma epsilon + epsilon = 0) by lra. rewrite E by exact Hm.
    replace (2 * (sigma / (t * sigma)) ^ 6 - 1) with (2 / t ^ 6 - 1) by (field; split; lra). rewrite T6. field.
  - intros r Hr Hn. rewrite E by exact Hr. apply Rmult_lt_0_compat; [exact He|]. apply pow2_gt_0. intros H. apply Hn.
    apply (pow_inj_pos r (t * sigma) 5 Hr Hm). rewrite (Rpow_mult_distr t sigma 6), T6.
    assert (H6 : r ^ 6 * (2 * (sigma / r) ^ 6 - 1) = 0) by (rewrite H; ring).
    replace (r ^ 6 * (2 * (sigma / r) ^ 6 - 1)) with (2 * sigma ^ 6 - r ^ 6) in H6 by (field; lra). lra.
Qed.
Lemma lj65_well sigma epsilon : 0 < sigma -> 0 < epsilon ->
  well (fun r => lennard_jones_65_6 r sigma epsilon) ((13 / 12) ^ 2 * sigma) (4 / 13 * (12 / 13) ^ 12 * epsilon).
Proof.
  intros Hs He.
  assert (E : forall r, 0 < r -> lennard_jones_65_6 r sigma epsilon + 4 / 13 * (12 / 13) ^ 12 * epsilon =
    4 / 13 * (12 / 13) ^ 12 * epsilon * (12 * (13 / 12 * sqrt (sigma / r)) ^ 13 - 13 * (13 / 12 * sqrt (sigma / r)) ^ 12 + 1)).
  { intros r Hr. assert (Hq : 0 < sigma / r) by (apply Rdiv_lt_0_compat; assumption). unfold lennard_jones_65_6. toR.
    rewrite nlit_neg. change (10 ^ 1)%Z with 10%Z. replace (65 / 10) with (13 / 2) by lra.
    rewrite (npowf_half (sigma / r) 13 13 eq_refl), (npowf_nat (sigma / r) 6 6 eq_refl) by assumption.
    assert (Es : sqrt (sigma / r) * sqrt (sigma / r) = sigma / r) by (apply sqrt_sqrt; lra).
    set (s := sqrt (sigma / r)) in *. rewrite <- Es. field. }
  assert (Hm : 0 < (13 / 12) ^ 2 * sigma) by (apply Rmult_lt_0_compat; [apply pow_lt|]; lra).
  assert (Hd : 0 < 4 / 13 * (12 / 13) ^ 12 * epsilon) by (apply Rmult_lt_0_compat; [|exact He]; apply Rmult_lt_0_compat; [lra|apply pow_lt; lra]).
  apply well_intro; [exact Hm| |].
  - enough (lennard_jones_65_6 ((13 / 12) ^ 2 * sigma) sigma epsilon + 4 / 13 * (12 / 13) ^ 12 * epsilon = 0) by lra. rewrite E by exact Hm.
    replace (sigma / ((13 / 12) ^ 2 * sigma)) with ((12 / 13) ^ 2) by (field; lra). rewrite sqrt_pow2 by lra.
    replace (13 / 12 * (12 / 13)) with 1 by field. rewrite !pow1. ring.
  - intros r Hr Hn. rewrite E by exact Hr. apply Rmult_lt_0_compat; [exact Hd|].
    assert (Hq : 0 < sigma / r) by (apply Rdiv_lt_0_compat; assumption). pose proof (sqrt_lt_R0 _ Hq) as Hp.
    apply thirteen_pos; [lra|]. intros H. apply Hn.
    assert (H1 : (13 / 12) ^ 2 * (sqrt (sigma / r)) ^ 2 = 1) by (rewrite <- Rpow_mult_distr, H; ring).
    rewrite pow2_sqrt in H1 by lra. apply (Rmult_eq_reg_r (/ r)); [|apply Rinv_neq_0_compat; lra].
    rewrite Rinv_r by lra. unfold Rdiv in H1 |- *. lra.
Qed.
Lemma four_eight_well alpha beta : 0 < alpha -> 0 < beta ->
  well (fun r => four_eight r alpha beta) (Rpower (2 * beta / alpha) (1 / 4)) (alpha ^ 2 / (4 * beta)).
Proof.
  intros Ha Hb.
  assert (E : forall r, 0 < r -> four_eight r alpha beta + alpha ^ 2 / (4 * beta) = beta * (1 / r ^ 4 - alpha / (2 * beta)) ^ 2).
  { intros r Hr. unfold four_eight. toR. rewrite (powerRZ_nat _ 4), (powerRZ_nat _ 8).
    replace ((npowf alpha (1 / 4) / r) ^ 4) with (npowf alpha (1 / 4) ^ 4 / r ^ 4) by (field; lra).
    replace ((npowf beta (1 / 8) / r) ^ 8) with (npowf beta (1 / 8) ^ 8 / r ^ 8) by (field; lra).
    rewrite npowf_quarter, npowf_eighth by assumption. field. lra. }
  assert (H0 : 0 < 2 * beta / alpha) by (apply Rdiv_lt_0_compat; lra).
  set (t := Rpower (2 * beta / alpha) (1 / 4)). assert (Ht : 0 < t) by apply Rpower_gt0.
  assert (T4 : t ^ 4 = 2 * beta / alpha).
  { unfold t. rewrite <- Rpower_pow by apply Rpower_gt0. rewrite Rpower_mult.
    replace (1 / 4 * INR 4) with 1 by (cbn [INR]; field). apply Rpower_1. exact H0. }
  apply well_intro; [exact Ht| |].
  - enough (four_eight t alpha beta + alpha ^ 2 / (4 * beta) = 0) by lra. rewrite E by exact Ht. rewrite T4. field. lra.
  - intros r Hr Hn. rewrite E by exact Hr. apply Rmult_lt_0_compat; [exact Hb|]. apply pow2_gt_0. intros H. apply Hn.
    apply (pow_inj_pos r t 3 Hr Ht). rewrite T4. pose proof (pow_lt r 4 Hr) as P4.
    assert (H1 : r ^ 4 * alpha = 2 * beta).
    { assert (H2 : 2 * beta * r ^ 4 * (1 / r ^ 4 - alpha / (2 * beta)) = 0) by (rewrite H; ring).
      replace (2 * beta * r ^ 4 * (1 / r ^ 4 - alpha / (2 * beta))) with (2 * beta - r ^ 4 * alpha) in H2 by (field; lra). lra. }
    rewrite <- H1. field. lra.
Qed.

(** ** the joined KR-C and Morse potential *)
Lemma sigmoid_R x k x0 : sigmoid x k x0 = / (1 + exp (- k * (x - x0))).
Proof. unfold sigmoid. toR. unfold Rdiv. ring. Qed.
Lemma sigmoid_neg x k x0 : sigmoid x (- k) x0 = 1 - sigmoid x k x0.
Proof.
  rewrite !sigmoid_R. replace (- - k * (x - x0)) with (- (- k * (x - x0))) by ring. rewrite exp_Ropp.
  pose proof (exp_pos (- k * (x - x0))). field. lra.
Qed.
Lemma sigmoid_bounds x k x0 : 0 < sigmoid x k x0 < 1.
Proof.
  rewrite sigmoid_R. pose proof (exp_pos (- k * (x - x0))). split; [apply Rinv_0_lt_compat; lra|].
  rewrite <- Rinv_1 at 2. apply Rinv_lt_contravar; lra.
Qed.
Lemma sigmoid_le x k x0 : sigmoid x k x0 <= exp (k * (x - x0)).
Proof.
  rewrite sigmoid_R. replace (k * (x - x0)) with (- (- k * (x - x0))) by ring. rewrite exp_Ropp.
  pose proof (exp_pos (- k * (x - x0))). apply Rinv_le_contravar; lra.
Qed.
Lemma sigmoid_ge x k x0 : 1 - sigmoid x k x0 <= exp (- k * (x - x0)).
Proof. rewrite <- sigmoid_neg. apply sigmoid_le. Qed.
Lemma krc_morse_mix r a Za Zb D alpha r0 k x0 K :
  interaction_potential r a Za Zb KR_C = Ok K ->
  krc_morse r a Za Zb D alpha r0 k x0 = K + sigmoid r k x0 * (morse r D alpha r0 - K).
Proof.
  intros H. cbn [interaction_potential] in H. unfold screened_coulomb in H. cbn [phi bind] in H.
  assert (I : forall x y : R, Ok x = Ok y -> x = y) by congruence. apply I in H. unfold krc_morse. rewrite H. change (-! k) with (- k). rewrite sigmoid_neg. toR. ring.
Qed.
