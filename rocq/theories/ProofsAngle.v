(** * ProofsAngle.v *)
From Coquelicot Require Import Coquelicot.
From Coq Require Import ZArith List Bool Lia Reals Lra Machin.
From Verif Require Import Num ModelTypes ModelConsts ModelInteractions ModelBca ProofsBase NumR SpecR SpecCollision SpecAngle
  ProofsInteractions ProofsNewton ProofsCollision PropertiesCollision.
Import ListNotations.
Open Scope R_scope.

(** ** numbers *)
Lemma PI_bounds : 3141592 / 1000000 <= PI <= 3141593 / 1000000.
Proof.
  pose proof (PI_2_3_7_ineq 3) as [H1 H2]. unfold tg_alt, PI_2_3_7_tg, Ratan_seq in H1, H2.
  cbn [sum_f_R0 Nat.mul Nat.add pow INR] in H1, H2. split; lra.
Qed.
Lemma sqrt5_bounds : 2236067 / 1000000 <= sqrt 5 <= 2236068 / 1000000.
Proof.
  split.
  - rewrite <- (sqrt_square (2236067 / 1000000)) by lra. apply sqrt_le_1; lra.
  - rewrite <- (sqrt_square (2236068 / 1000000)) by lra. apply sqrt_le_1; lra.
Qed.
Lemma inv_sqrt5 : 4472135 / 10000000 <= / sqrt 5 <= 4472140 / 10000000.
Proof.
  pose proof sqrt5_bounds as [H1 H2]. split.
  - apply Rmult_le_reg_r with (sqrt 5); [lra|]. rewrite Rinv_l by lra. lra.
  - apply Rmult_le_reg_r with (sqrt 5); [lra|]. rewrite Rinv_l by lra. lra.
Qed.
Lemma fact_R n : INR (fact (S n)) = INR (S n) * INR (fact n).
Proof. rewrite fact_simpl, mult_INR. reflexivity. Qed.
Lemma fact_values : INR (fact 0) = 1 /\ INR (fact 1) = 1 /\ INR (fact 2) = 2 /\ INR (fact 3) = 6 /\ INR (fact 4) = 24 /\ INR (fact 5) = 120 /\
  INR (fact 6) = 720 /\ INR (fact 7) = 5040 /\ INR (fact 8) = 40320 /\ INR (fact 9) = 362880.
Proof.
  assert (F0 : INR (fact 0) = 1) by reflexivity. rewrite !fact_R, F0. cbn [INR]. repeat split; lra.
Qed.
Lemma cos_rational a : 0 <= a <= 3 / 2 -> 
  1 - a * a / 2 + a * a * a * a / 24 - a * a * a * a * a * a / 720 <= cos a <= 1 - a * a / 2 + a * a * a * a / 24 - a * a * a * a * a * a / 720 + a * a * a * a * a * a * a * a / 40320.
Proof.
  intro H. pose proof PI_bounds. pose proof (cos_bound a 1 ltac:(lra) ltac:(lra)) as [H1 H2].
  unfold cos_approx, cos_term in H1, H2. cbn [sum_f_R0 Nat.mul Nat.add pow] in H1, H2.
  destruct fact_values as (F0 & _ & F2 & _ & F4 & _ & F6 & _ & F8 & _). rewrite F0, F2, F4, F6 in H1. rewrite F0, F2, F4, F6, F8 in H2. clear F0 F2 F4 F6 F8. split; lra.
Qed.
Lemma sin_rational a : 0 <= a <= 3 / 2 -> 
  a - a * a * a / 6 + a * a * a * a * a / 120 - a * a * a * a * a * a * a / 5040 <= sin a <= a - a * a * a / 6 + a * a * a * a * a / 120 - a * a * a * a * a * a * a / 5040 + a * a * a * a * a * a * a * a * a / 362880.
Proof.
  intro H. pose proof PI_bounds. pose proof (sin_bound a 1 ltac:(lra) ltac:(lra)) as [H1 H2].
  unfold sin_approx, sin_term in H1, H2. cbn [sum_f_R0 Nat.mul Nat.add pow] in H1, H2.
  destruct fact_values as (_ & F1 & _ & F3 & _ & F5 & _ & F7 & _ & F9). rewrite F1, F3, F5, F7 in H1. rewrite F1, F3, F5, F7, F9 in H2. clear F1 F3 F5 F7 F9. split; lra.
Qed.
Lemma lobatto_angle : 434156 / 1000000 <= PI / 2 * lobatto_1 <= 434159 / 1000000.
Proof.
  pose proof PI_bounds as [H1 H2]. pose proof inv_sqrt5 as [H3 H4]. unfold lobatto_1. split.
  - apply Rle_trans with (3141592 / 1000000 / 2 * ((1 - 4472140 / 10000000) / 2)); [lra|]. apply Rmult_le_compat; lra.
  - apply Rle_trans with (3141593 / 1000000 / 2 * ((1 - 4472135 / 10000000) / 2)); [|lra]. apply Rmult_le_compat; lra.
Qed.
Lemma lobatto_values : Rabs (9072 / 10000 - cos (PI / 2 * lobatto_1)) <= 5 / 100000 /\ Rabs (4206 / 10000 - sin (PI / 2 * lobatto_1)) <= 5 / 100000 /\
  cos (PI / 2 * lobatto_2) = sin (PI / 2 * lobatto_1) /\ sin (PI / 2 * lobatto_2) = cos (PI / 2 * lobatto_1).
Proof.
  pose proof lobatto_angle as [H1 H2]. pose proof PI_bounds as [P1 P2].
  assert (E : PI / 2 * lobatto_2 = PI / 2 - PI / 2 * lobatto_1) by (unfold lobatto_1, lobatto_2; field; pose proof sqrt5_bounds; lra).
  rewrite E, sin_shift, cos_shift. set (a := PI / 2 * lobatto_1) in *.
  pose proof (cos_decr_1 (434156/1000000) a ltac:(lra) ltac:(lra) ltac:(lra) ltac:(lra) H1) as C1.
  pose proof (cos_decr_1 a (434159/1000000) ltac:(lra) ltac:(lra) ltac:(lra) ltac:(lra) H2) as C2.
  pose proof (sin_incr_1 (434156/1000000) a ltac:(lra) ltac:(lra) ltac:(lra) ltac:(lra) H1) as S1.
  pose proof (sin_incr_1 a (434159/1000000) ltac:(lra) ltac:(lra) ltac:(lra) ltac:(lra) H2) as S2.
  pose proof (cos_rational (434156/1000000) ltac:(lra)) as [_ K1]. pose proof (cos_rational (434159/1000000) ltac:(lra)) as [K2 _].
  pose proof (sin_rational (434156/1000000) ltac:(lra)) as [K3 _]. pose proof (sin_rational (434159/1000000) ltac:(lra)) as [_ K4].
  split; [apply Rabs_le; split; lra|]. split; [apply Rabs_le; split; lra|]. split; reflexivity.
Qed.

(** ** the radial kinetic energy of a screened collision *)
Lemma power_minus_half y : 0 < y -> npowf y (- (1 / 2)) = / sqrt y.
Proof. intro H. rewrite npowf_pos by exact H. rewrite Rpower_Ropp. replace (1 / 2) with (/ 2) by lra. rewrite Rpower_sqrt by exact H. reflexivity. Qed.
Lemma half_literals : (nlit (-5) (-1) : R) = - (1 / 2) /\ (nZ (-1) / nZ 2 : R) = - (1 / 2) /\ (nlit 5 (-1) : R) = 1 / 2 /\
  (nlit 9072 (-4) : R) = 9072 / 10000 /\ (nlit 4206 (-4) : R) = 4206 / 10000.
Proof. rewrite !nlit_neg, !nZ_R. change (10 ^ 1)%Z with 10%Z. change (10 ^ 4)%Z with 10000%Z. repeat split; lra. Qed.

Section Screened.
  Context (Za Zb E p x : R) (ip : InteractionPotential R) (V : R -> R)
    (Hs : screened ip) (Ha : 0 < Za) (Hb : 0 < Zb) (HE : 0 < E) (Hp : 0 < p) (Hx : 0 < x).
  Let a := screening_length Za Zb ip.
  Context (HV : is_potential a Za Zb ip V) (Ht : turning_point V E p (x * a)).
  Let e := reduced_energy a Za Zb E.
  Let f := expsum (screening_terms ip).
  Let df := dexpsum (screening_terms ip).
  Let b := p / (x * a).
  Lemma sc_a : 0 < a. Proof. exact (screening_length_pos Za Zb ip Hs Ha Hb). Qed.
  Lemma sc_e : 0 < e. Proof. apply reduced_energy_pos; [exact sc_a|assumption..]. Qed.
  Lemma sc_r0 : 0 < x * a. Proof. apply Rmult_lt_0_compat; [exact Hx|exact sc_a]. Qed.
  Lemma sc_b : 0 < b. Proof. apply Rdiv_lt_0_compat; [exact Hp|exact sc_r0]. Qed.
  Lemma sc_K : 0 < Za * Zb * cQ * cQ / 4 / PI / cEPS0.
  Proof.
    pose proof cQ_pos. pose proof cEPS0_pos. pose proof PI_RGT_0. unfold Rdiv.
    apply Rmult_lt_0_compat; [|apply Rinv_0_lt_compat; assumption]. apply Rmult_lt_0_compat; [|apply Rinv_0_lt_compat; assumption].
    apply Rmult_lt_0_compat; [|lra]. apply Rmult_lt_0_compat; [|assumption]. apply Rmult_lt_0_compat; [|assumption]. apply Rmult_lt_0_compat; assumption.
  Qed.
  Lemma sc_VE y : 0 < y -> V (y * a) / E = f y / y / e.
  Proof.
    intro Hy. rewrite (potential_unique a Za Zb ip V Hs HV). unfold e, reduced_energy. pose proof sc_K as HK. set (K := _ / _ / _ / _) in *. clearbody K.
    pose proof sc_a. replace (y * a / a) with y by (field; lra). fold f. field. repeat split; lra.
  Qed.
  Lemma sc_turn : f x / x / e = 1 - b * b.
  Proof. rewrite <- (sc_VE x Hx). unfold turning_point in Ht. fold b in Ht. lra. Qed.
  Lemma sc_fpos y : 0 < f y. Proof. apply expsum_pos, screening_terms_pos. exact Hs. Qed.
  Lemma sc_dfneg y : df y < 0. Proof. apply dexpsum_neg, screening_terms_pos. exact Hs. Qed.
  Lemma sc_b1 : b * b < 1.
  Proof.
    assert (0 < f x / x / e) by (apply Rdiv_lt_0_compat; [apply Rdiv_lt_0_compat; [apply sc_fpos|exact Hx]|exact sc_e]). rewrite sc_turn in H. lra.
  Qed.
  Lemma sc_b2 : b < 1.
  Proof. pose proof sc_b1. pose proof sc_b. destruct (Rlt_or_le b 1) as [L|L]; [exact L|]. pose proof (Rmult_le_compat 1 b 1 b ltac:(lra) ltac:(lra) L L). lra. Qed.
  Lemma sc_radial u : 0 < u -> radial V E p (x * a) u = 1 - f (x / u) / (x / u) / e - b * u * (b * u).
  Proof.
    intro Hu. unfold radial. replace (x * a / u) with (x / u * a) by (field; lra).
    rewrite sc_VE by (apply Rdiv_lt_0_compat; assumption). unfold b. pose proof sc_e. pose proof sc_a. replace (p * u / (x * a)) with (p / (x * a) * u) by (field; lra). reflexivity.
  Qed.
  (** screening only weakens the repulsion further out *)
  Lemma sc_radial_ge u : 0 < u < 1 -> (1 - u) * (1 + b * b * u) <= radial V E p (x * a) u.
  Proof.
    intro Hu. rewrite sc_radial by lra.
    assert (H : f (x / u) / (x / u) / e <= u * (1 - b * b)).
    { rewrite <- sc_turn. pose proof sc_e as He.
      replace (f (x / u) / (x / u) / e) with (u * (f (x / u) * (/ x * / e))) by (field; lra).
      replace (f x / x / e) with (f x * (/ x * / e)) by (field; lra).
      apply Rmult_le_compat_l; [lra|]. apply Rmult_le_compat_r.
      - apply Rlt_le, Rmult_lt_0_compat; apply Rinv_0_lt_compat; assumption.
      - apply Rlt_le, expsum_decr; [apply screening_terms_pos; exact Hs|].
        apply Rmult_lt_reg_r with u; [lra|]. replace (x / u * u) with x by (field; lra). pose proof (Rmult_lt_compat_l x u 1 Hx ltac:(lra)). lra. }
    replace ((1 - u) * (1 + b * b * u)) with (1 - u * (1 - b * b) - b * u * (b * u)) by ring. lra.
  Qed.
  Lemma sc_radial_pos u : 0 < u < 1 -> 0 < radial V E p (x * a) u.
  Proof.
    intro Hu. pose proof (sc_radial_ge u Hu). pose proof sc_b.
    assert (0 < b * b * u) by (apply Rmult_lt_0_compat; [apply Rmult_lt_0_compat; assumption|lra]).
    assert (0 < (1 - u) * (1 + b * b * u)) by (apply Rmult_lt_0_compat; lra). lra.
  Qed.
  (** the value at the turning point of the transformed integrand, squared and inverted *)
  Let m := 1 / 2 + b * b / 2 - df x / 2 / e.
  Lemma sc_m : 1 / 2 + b * b / 2 < m.
  Proof.
    unfold m. pose proof (sc_dfneg x). pose proof sc_e.
    assert (0 < (- df x) * (/ 2 * / e)) by (apply Rmult_lt_0_compat; [lra|]; apply Rmult_lt_0_compat; [lra|apply Rinv_0_lt_compat; assumption]).
    replace (df x / 2 / e) with (- ((- df x) * (/ 2 * / e))) by (field; lra). lra.
  Qed.
  Definition mw_sum (lam : R) (r : R -> R) : R :=
    / 12 * (lam + 1) + 5 / 12 * (4206 / 10000 * / sqrt (r (9072 / 10000)) + 9072 / 10000 * / sqrt (r (4206 / 10000))).
  Lemma mw_value Ma Mb E0 : 0 < Ma -> 0 < Mb -> E = E0 * Mb / (Ma + Mb) ->
    mendenhall_weller Za Zb Ma Mb E0 p x ip = Ok (PI * (1 - b * mw_sum (/ sqrt m) (radial V E p (x * a)))).
  Proof.
    intros Hma Hmb EE. unfold mendenhall_weller. cbv zeta. fold a.
    assert (Er : cLINDHARD_REDUCED_ENERGY_PREFACTOR *! a *! Mb /! (Ma +! Mb) /! Za /! Zb *! E0 = e).
    { pose proof (reduced_energy_R a Za Zb E Ha Hb) as H. unfold e, reduced_energy. rewrite <- H, EE. toR. unfold Rdiv. ring. }
    rewrite Er. destruct half_literals as (L1 & L2 & L3 & L4 & L5).
    unfold scattering_integral_mw. rewrite (dphi_R x ip Hs). rewrite !(phi_R _ ip Hs). fold f df. cbn [bind].
    rewrite L1, L3, L4, L5. toR. rewrite ?nZ_R. change (@npi R NumR) with PI.
    pose proof sc_a as HA. pose proof sc_e as He. pose proof sc_m as Hm. pose proof sc_b as HB. pose proof (Rmult_lt_0_compat _ _ HB HB) as HBB.
    assert (E1 : 1 / 2 + p / a * (p / a) / x / x / 2 - df x / 2 / e = m) by (unfold m, b; field; repeat split; lra). rewrite E1.
    replace (-1 / 2) with (- (1 / 2)) by lra. rewrite (power_minus_half m) by lra.
    assert (E2 : forall u, 0 < u < 1 -> npowf (1 - f (x / u) / (x / u) / e - p / a * (p / a) / (x / u) / (x / u)) (- (1 / 2)) = / sqrt (radial V E p (x * a) u)).
    { intros u Hu. replace (1 - f (x / u) / (x / u) / e - p / a * (p / a) / (x / u) / (x / u)) with (radial V E p (x * a) u).
      - apply power_minus_half, sc_radial_pos. exact Hu.
      - rewrite sc_radial by lra. unfold b. field. repeat split; lra. }
    rewrite !E2 by lra. f_equal. unfold mw_sum, b.
    generalize (/ sqrt m) (/ sqrt (radial V E p (x * a) (9072 / 10000))) (/ sqrt (radial V E p (x * a) (4206 / 10000))). intros z1 z2 z3.
    field. repeat split; lra.
  Qed.
  Lemma mw_sum_bound : 0 <= b * mw_sum (/ sqrt m) (radial V E p (x * a)) <= 1.
  Proof.
    pose proof sc_b as HB. pose proof sc_b2 as HB2. pose proof sc_m as Hm.
    assert (BB : 0 < b * b) by (apply Rmult_lt_0_compat; assumption).
    assert (G : forall k z, 0 <= k -> 0 < z -> (b * k) * (b * k) <= z -> 0 <= b * (k * / sqrt z) <= 1).
    { intros k z Hk Hz H. pose proof (sqrt_lt_R0 z Hz) as Hq. assert (0 < / sqrt z) by (apply Rinv_0_lt_compat; exact Hq).
      assert (0 <= b * k) by (apply Rmult_le_pos; lra). split.
      - rewrite <- Rmult_assoc. apply Rmult_le_pos; lra.
      - rewrite <- Rmult_assoc. apply Rmult_le_reg_r with (sqrt z); [exact Hq|]. rewrite Rmult_assoc, Rinv_l by lra. rewrite Rmult_1_r, Rmult_1_l.
        rewrite <- (sqrt_square (b * k)) by assumption. apply sqrt_le_1; [apply Rmult_le_pos; assumption|lra|exact H]. }
    assert (BB1 : b * b < 1) by exact sc_b1.
    pose proof (G 1 m ltac:(lra) ltac:(lra) ltac:(rewrite !Rmult_1_r; lra)) as G0. rewrite Rmult_1_l in G0.
    pose proof (sc_radial_ge (9072 / 10000) ltac:(lra)) as R1. pose proof (sc_radial_ge (4206 / 10000) ltac:(lra)) as R2.
    pose proof (sc_radial_pos (9072 / 10000) ltac:(lra)) as P1. pose proof (sc_radial_pos (4206 / 10000) ltac:(lra)) as P2.
    pose proof (G (4206 / 10000) _ ltac:(lra) P1 ltac:(replace (b * (4206 / 10000) * (b * (4206 / 10000))) with (4206 / 10000 * (4206 / 10000) * (b * b)) by ring; lra)) as G1.
    pose proof (G (9072 / 10000) _ ltac:(lra) P2 ltac:(replace (b * (9072 / 10000) * (b * (9072 / 10000))) with (9072 / 10000 * (9072 / 10000) * (b * b)) by ring; lra)) as G2.
    unfold mw_sum. rewrite Rmult_plus_distr_l.
    replace (b * (/ 12 * (/ sqrt m + 1))) with (/ 12 * (b * / sqrt m + b)) by ring.
    match goal with |- context [b * (5 / 12 * (?y + ?z))] => replace (b * (5 / 12 * (y + z))) with (5 / 12 * (b * y + b * z)) by ring end. lra.
  Qed.

  (** *** the two ends of the transformed integral *)
  Lemma sc_slope : is_lim (fun u => radial V E p (x * a) u / (1 - u)) 1 (2 * m).
  Proof.
    pose proof sc_e as He.
    assert (D : is_derive (fun u => 1 - f (x / u) / (x / u) / e - b * u * (b * u)) 1 (- (2 * m))).
    { unfold f.
      assert (Df : is_derive (fun u => expsum (screening_terms ip) (x / u)) 1 (- x * df x)).
      { evar_last. apply (is_derive_comp (expsum (screening_terms ip)) (fun u => x / u)).
        - apply is_derive_Reals, expsum_deriv.
        - auto_derive; [lra|reflexivity].
        - unfold scal; cbn. unfold mult; cbn. unfold df. replace (x / 1) with x by field. field. }
      assert (Ed : - (2 * m) = 0 - ((- x * df x) * (/ x * / e) + f x * (/ x * / e)) - 2 * (b * b)).
      { pose proof sc_turn as T. unfold m. assert (f x * (/ x * / e) = 1 - b * b) by (rewrite <- T; field; lra). rewrite H. field. lra. }
      rewrite Ed.
      apply (is_derive_ext_loc (fun u => 1 - (expsum (screening_terms ip) (x / u) * (u * (/ x * / e))) - b * b * (u * u))).
      { exists (mkposreal (1 / 2) ltac:(lra)). intros u Hu. cbn in Hu. unfold ball in Hu; cbn in Hu. unfold AbsRing_ball, abs, minus, plus, opp in Hu; cbn in Hu.
        apply Rabs_def2 in Hu. match goal with |- ?l = ?r => change (@eq R l r) end. fold f. field. repeat split; lra. }
      set (F := fun u => expsum (screening_terms ip) (x / u)) in *. assert (F1 : F 1 = f x) by (unfold F, f; f_equal; field).
      change (is_derive F 1 (- x * df x)) in Df. match goal with |- is_derive _ 1 ?v => change (is_derive (fun u => 1 - F u * (u * (/ x * / e)) - b * b * (u * u)) 1 v) end.
      rewrite <- F1. clearbody F. generalize (/ x * / e) (- x * df x) Df. intros w d Dd. apply is_derive_Reals in Dd. apply is_derive_Reals.
      assert (W : derivable_pt_lim (fun u => u * w) 1 w) by (apply is_derive_Reals; auto_derive; [exact I|ring]).
      assert (W2 : derivable_pt_lim (fun u => b * b * (u * u)) 1 (2 * (b * b))) by (apply is_derive_Reals; auto_derive; [exact I|ring]).
      pose proof (derivable_pt_lim_mult F (fun u => u * w) 1 _ _ Dd W) as M.
      pose proof (derivable_pt_lim_minus _ _ 1 _ _ (derivable_pt_lim_minus _ _ 1 _ _ (derivable_pt_lim_const 1 1) M) W2) as M2.
      cbv beta in M2. replace (1 * w) with w in M2 by ring. exact M2. }
    apply is_derive_Reals in D. apply is_lim_spec. intros eps. destruct (D eps (cond_pos eps)) as (dl & Hd).
    assert (Hm : 0 < Rmin dl (1 / 2)) by (apply Rmin_pos; [apply cond_pos|lra]).
    exists (mkposreal _ Hm). intros u Hu Hn. change R in u. unfold ball in Hu; cbn in Hu. unfold AbsRing_ball, abs, minus, plus, opp in Hu; cbn in Hu.
    assert (Hu1 : Rabs (u + - (1)) < dl) by (eapply Rlt_le_trans; [exact Hu|apply Rmin_l]).
    assert (Hu2 : Rabs (u + - (1)) < 1 / 2) by (eapply Rlt_le_trans; [exact Hu|apply Rmin_r]). apply Rabs_def2 in Hu2.
    specialize (Hd (u - 1) ltac:(lra) Hu1). assert (UU : @eq R (1 + (u - 1)) u) by ring. rewrite UU in Hd.
    rewrite sc_radial by lra.
    assert (Z : 1 - f (x / 1) / (x / 1) / e - b * 1 * (b * 1) = 0).
    { replace (x / 1) with x by field. rewrite sc_turn. ring. }
    rewrite Z in Hd. rewrite <- Rabs_Ropp in Hd. match type of Hd with Rabs ?y < _ => match goal with |- Rabs ?z < _ => replace z with y; [exact Hd|field; repeat split; lra] end end.
  Qed.
  Lemma sc_start : filterlim (flight V E p (x * a)) (at_right 0) (locally (/ sqrt m)).
  Proof.
    pose proof sc_m as Hm. pose proof sc_b as HB. pose proof (Rmult_lt_0_compat _ _ HB HB) as HBB. pose proof PI_RGT_0 as HP. pose proof PI_bounds as HP4.
    apply (filterlim_ext_loc (fun t => sqrt ((1 + cos (PI / 2 * t)) / (radial V E p (x * a) (cos (PI / 2 * t)) / (1 - cos (PI / 2 * t)))))).
    { exists (mkposreal 1 Rlt_0_1). intros t Ht1 Ht0. unfold ball in Ht1; cbn in Ht1. unfold AbsRing_ball, abs, minus, plus, opp in Ht1; cbn in Ht1. apply Rabs_def2 in Ht1.
      assert (T1 : 0 < PI / 2 * t) by (apply Rmult_lt_0_compat; lra).
      assert (T2 : PI / 2 * t < PI / 2 * 1) by (apply Rmult_lt_compat_l; lra).
      assert (C0 : 0 < cos (PI / 2 * t)) by (apply cos_gt_0; lra).
      assert (S0 : 0 < sin (PI / 2 * t)) by (apply sin_gt_0; lra).
      pose proof (sin2_cos2 (PI / 2 * t)) as SC. unfold Rsqr in SC. unfold flight.
      set (s := sin (PI / 2 * t)) in *. set (u := cos (PI / 2 * t)) in *.
      assert (SS : 0 < s * s) by (apply Rmult_lt_0_compat; assumption).
      assert (U1 : u < 1). { destruct (Rlt_or_le u 1) as [L|L]; [exact L|]. pose proof (Rmult_le_compat 1 u 1 u ltac:(lra) ltac:(lra) L L). lra. }
      pose proof (sc_radial_pos u ltac:(lra)) as RP. set (r := radial V E p (x * a) u) in *.
      replace ((1 + u) / (r / (1 - u))) with (s * s / r) by (replace (s * s) with ((1 + u) * (1 - u)) by lra; field; lra).
      rewrite sqrt_div by lra. rewrite sqrt_square by lra. reflexivity. }
    apply (filterlim_comp _ _ _ (fun t => cos (PI / 2 * t)) (fun u => sqrt ((1 + u) / (radial V E p (x * a) u / (1 - u)))) (at_right 0) (locally' 1)).
    - intros P HPP. unfold locally', within in HPP. unfold filtermap.
      assert (C : filterlim (fun t => cos (PI / 2 * t)) (locally 0) (locally 1)).
      { assert (CC : continuous (fun t => cos (PI / 2 * t)) 0).
        { apply (ex_derive_continuous (fun t => cos (PI / 2 * t))). auto_derive. exact I. }
        unfold continuous in CC. rewrite Rmult_0_r, cos_0 in CC. exact CC. }
      specialize (C _ HPP). unfold filtermap in C. unfold at_right, within.
      apply filter_imp with (fun t => (cos (PI / 2 * t) <> 1 -> P (cos (PI / 2 * t))) /\ t < 1).
      + intros t (H1 & H2) H3. apply H1. assert (T1 : 0 < PI / 2 * t) by (apply Rmult_lt_0_compat; lra).
        assert (T2 : PI / 2 * t < PI / 2 * 1) by (apply Rmult_lt_compat_l; lra).
        assert (cos (PI / 2 * t) < cos 0) by (apply cos_decreasing_1; lra). rewrite cos_0 in H. lra.
      + apply filter_and; [exact C|]. exists (mkposreal 1 Rlt_0_1). intros t Ht1. unfold ball in Ht1; cbn in Ht1. unfold AbsRing_ball, abs, minus, plus, opp in Ht1; cbn in Ht1. apply Rabs_def2 in Ht1. lra.
    - replace (/ sqrt m) with (sqrt (2 / (2 * m))).
      + apply (filterlim_comp _ _ _ (fun u => (1 + u) / (radial V E p (x * a) u / (1 - u))) sqrt (locally' 1) (locally (2 / (2 * m)))).
        * change (is_lim (fun u => (1 + u) / (radial V E p (x * a) u / (1 - u))) 1 (2 / (2 * m))).
          assert (L : is_lim (fun u => 1 + u) 1 2).
          { replace (Finite 2) with (Finite ((fun u => 1 + u) 1)) by (cbn; f_equal; lra). apply (is_lim_continuity (fun u => 1 + u)). reg. }
          pose proof (is_lim_div _ _ 1 _ _ L sc_slope) as D. cbn in D. apply D; [|exact I]. intro K. injection K as K. lra.
        * apply continuous_sqrt.
      + replace (2 / (2 * m)) with (/ m) by (field; lra). apply sqrt_inv.
  Qed.
  Lemma sc_end : filterlim (flight V E p (x * a)) (at_left 1) (locally 1).
  Proof.
    pose proof sc_b as HB. pose proof sc_b2 as HB2. pose proof PI_bounds as HP4. pose proof (Rmult_lt_0_compat _ _ HB HB) as HBB.
    change (filterlim (flight V E p (x * a)) (at_left 1) (Rbar_locally 1)).
    apply (filterlim_le_le (fun t => sin (PI / 2 * t)) _ (fun t => sin (PI / 2 * t) / sqrt (1 - cos (PI / 2 * t)))).
    - exists (mkposreal 1 Rlt_0_1). intros t Ht1 Ht0. unfold ball in Ht1; cbn in Ht1. unfold AbsRing_ball, abs, minus, plus, opp in Ht1; cbn in Ht1. apply Rabs_def2 in Ht1.
      assert (T1 : 0 < PI / 2 * t) by (apply Rmult_lt_0_compat; lra).
      assert (T2 : PI / 2 * t < PI / 2 * 1) by (apply Rmult_lt_compat_l; lra).
      assert (C0 : 0 < cos (PI / 2 * t)) by (apply cos_gt_0; lra).
      assert (S0 : 0 < sin (PI / 2 * t)) by (apply sin_gt_0; lra).
      assert (C1 : cos (PI / 2 * t) < cos 0) by (apply cos_decreasing_1; lra). rewrite cos_0 in C1.
      unfold flight. set (s := sin (PI / 2 * t)) in *. set (u := cos (PI / 2 * t)) in *.
      pose proof (sc_radial_pos u ltac:(lra)) as RP. pose proof (sc_radial_ge u ltac:(lra)) as RG.
      assert (RL : radial V E p (x * a) u <= 1).
      { rewrite sc_radial by lra. pose proof (Rle_0_sqr (b * u)) as Q. unfold Rsqr in Q.
        assert (0 < f (x / u) / (x / u) / e); [|lra]. apply Rdiv_lt_0_compat; [|exact sc_e]. apply Rdiv_lt_0_compat; [apply sc_fpos|]. apply Rdiv_lt_0_compat; lra. }
      assert (RG2 : 1 - u <= radial V E p (x * a) u).
      { eapply Rle_trans; [|exact RG]. rewrite <- (Rmult_1_r (1 - u)) at 1. apply Rmult_le_compat_l; [lra|]. assert (0 <= b * b * u) by (apply Rmult_le_pos; lra). lra. }
      set (r := radial V E p (x * a) u) in *.
      assert (Q1 : sqrt r <= 1) by (rewrite <- sqrt_1; apply sqrt_le_1; lra). assert (Q2 : sqrt (1 - u) <= sqrt r) by (apply sqrt_le_1; lra).
      assert (Q0 : 0 < sqrt (1 - u)) by (apply sqrt_lt_R0; lra). split.
      + rewrite <- (Rdiv_1 s) at 1. unfold Rdiv. apply Rmult_le_compat_l; [lra|]. apply Rinv_le_contravar; lra.
      + unfold Rdiv. apply Rmult_le_compat_l; [lra|]. apply Rinv_le_contravar; lra.
    - eapply filterlim_filter_le_1; [apply filter_le_within|].
      assert (CC : continuous (fun t => sin (PI / 2 * t)) 1) by (apply (ex_derive_continuous (fun t => sin (PI / 2 * t))); auto_derive; exact I).
      unfold continuous in CC. rewrite Rmult_1_r, sin_PI2 in CC. exact CC.
    - eapply filterlim_filter_le_1; [apply filter_le_within|].
      assert (CC : continuous (fun t => sin (PI / 2 * t) / sqrt (1 - cos (PI / 2 * t))) 1).
      { apply (ex_derive_continuous (fun t => sin (PI / 2 * t) / sqrt (1 - cos (PI / 2 * t)))). auto_derive. rewrite Rmult_1_r, cos_PI2. replace (1 + - 0) with 1 by ring. rewrite sqrt_1. repeat split; lra. }
      unfold continuous in CC. rewrite Rmult_1_r, sin_PI2, cos_PI2, Rminus_0_r, sqrt_1 in CC. replace (1 / 1) with 1 in CC by field. exact CC.
  Qed.

  (** *** the magic formula *)
  Lemma magic_shape A G : 0 < A -> 0 < G ->
    A * (G * (sqrt (1 + A * A) - A)) / (1 + G * (sqrt (1 + A * A) - A)) = A / (1 + / G / (sqrt (1 + A * A) - A)) /\
    0 < sqrt (1 + A * A) - A /\ A * (sqrt (1 + A * A) - A) < 1 / 2.
  Proof.
    intros HA HG. assert (AA : 0 < A * A) by (apply Rmult_lt_0_compat; assumption).
    assert (S : A < sqrt (1 + A * A)) by (rewrite <- (sqrt_square A) at 1 by lra; apply sqrt_lt_1; lra).
    pose proof (sqrt_sqrt (1 + A * A) ltac:(lra)) as SS. set (s := sqrt (1 + A * A)) in *.
    assert (P : 0 < G * (s - A)) by (apply Rmult_lt_0_compat; lra). split; [|split; [lra|]].
    - field. repeat split; lra.
    - apply Rmult_lt_reg_r with (s + A); [lra|]. replace (A * (s - A) * (s + A)) with (A * (s * s - A * A)) by ring. rewrite SS.
      replace (1 + A * A - A * A) with 1 by ring. lra.
  Qed.
  Definition magic_pos (c : magic_parameters) : Prop := 0 < C1 c /\ 0 < C2 c /\ 0 < C3 c /\ 0 < C4 c /\ 0 < C5 c /\ C5 c < 2 * C4 c.
  Lemma magic_correction_range c eps B R0 : magic_pos c -> 0 < eps -> 0 < B -> B < R0 ->
    0 < magic_correction c eps B R0 < R0 - B.
  Proof.
    intros (H1 & H2 & H3 & H4 & H5 & H6) He HB HR. unfold magic_correction. cbv zeta. pose proof (sqrt_lt_R0 _ He) as Hq.
    assert (Ap : 0 < 2 * (1 + C1 c / sqrt eps) * eps * Rpower B ((C2 c + sqrt eps) / (C3 c + sqrt eps))).
    { apply Rmult_lt_0_compat; [|unfold Rpower; apply exp_pos]. apply Rmult_lt_0_compat; [|exact He].
      pose proof (Rdiv_lt_0_compat _ _ H1 Hq). lra. }
    set (A := 2 * (1 + C1 c / sqrt eps) * eps * Rpower B ((C2 c + sqrt eps) / (C3 c + sqrt eps))) in *. clearbody A.
    assert (Gp : 0 < (C5 c + eps) / (C4 c + eps) < 2).
    { split; [apply Rdiv_lt_0_compat; lra|]. apply Rmult_lt_reg_r with (C4 c + eps); [lra|]. replace ((C5 c + eps) / (C4 c + eps) * (C4 c + eps)) with (C5 c + eps) by (field; lra). lra. }
    destruct (magic_shape A _ Ap (proj1 Gp)) as (E1 & E2 & E3).
    replace (/ ((C5 c + eps) / (C4 c + eps))) with ((C4 c + eps) / (C5 c + eps)) in E1 by (field; lra).
    set (G := (C5 c + eps) / (C4 c + eps)) in *. set (g := (C4 c + eps) / (C5 c + eps)) in *. set (d := sqrt (1 + A * A) - A) in *.
    assert (g0 : 0 < g) by (apply Rdiv_lt_0_compat; lra). assert (0 < g / d) by (apply Rdiv_lt_0_compat; assumption).
    replace (A * (R0 - B) / (1 + g / d)) with (A / (1 + g / d) * (R0 - B)) by (field; lra). rewrite <- E1.
    assert (Gd : 0 < G * d) by (apply Rmult_lt_0_compat; lra).
    assert (F0 : 0 < A * (G * d) / (1 + G * d)) by (apply Rdiv_lt_0_compat; [apply Rmult_lt_0_compat; assumption|lra]).
    assert (F1 : A * (G * d) / (1 + G * d) < 1).
    { apply Rmult_lt_reg_r with (1 + G * d); [lra|]. replace (A * (G * d) / (1 + G * d) * (1 + G * d)) with (G * (A * d)) by (field; lra).
      assert (0 < A * d) by (apply Rmult_lt_0_compat; assumption). pose proof (Rmult_lt_compat_r (A * d) G 2 ltac:(lra) ltac:(lra)). lra. }
    split; [apply Rmult_lt_0_compat; lra|]. pose proof (Rmult_lt_compat_r (R0 - B) _ _ ltac:(lra) F1). lra.
  Qed.
  Lemma magic_angle_range c eps B R0 Rc : magic_pos c -> 0 < eps -> 0 < B -> B < R0 -> 0 < Rc ->
    0 < magic_angle c eps B R0 Rc < PI.
  Proof.
    intros H1 H2 H3 H4 H5. pose proof (magic_correction_range c eps B R0 H1 H2 H3 H4) as (D1 & D2). unfold magic_angle.
    set (d := magic_correction c eps B R0) in *.
    assert (Q : 0 < (B + Rc + d) / (R0 + Rc) < 1).
    { split; [apply Rdiv_lt_0_compat; lra|]. apply Rmult_lt_reg_r with (R0 + Rc); [lra|]. replace ((B + Rc + d) / (R0 + Rc) * (R0 + Rc)) with (B + Rc + d) by (field; lra). lra. }
    assert (K : -1 < (B + Rc + d) / (R0 + Rc) < 1) by lra. apply acos_bound_lt in K.
    assert (acos ((B + Rc + d) / (R0 + Rc)) < PI / 2) by (destruct (Rlt_or_le (acos ((B + Rc + d) / (R0 + Rc))) (PI / 2)) as [L|L]; [exact L|];
      pose proof (cos_le_0 _ L ltac:(lra)) as N; rewrite cos_acos in N by lra; lra). lra.
  Qed.
  (** [dV] is the derivative of the potential at the closest approach *)
  Let K := Za * Zb * cQ * cQ / 4 / PI / cEPS0.
  Lemma sc_DV : derivable_pt_lim V (x * a) (- V (x * a) / (x * a) + K / a / (x * a) * df x).
  Proof.
    rewrite (potential_unique a Za Zb ip V Hs HV). fold f. fold K. pose proof sc_a as HA. pose proof (potential_unique a Za Zb ip V Hs HV) as PU. fold K in PU. clearbody K.
    assert (DW : derivable_pt_lim (fun r => K / r * f (r / a)) (x * a) (- (K / (x * a) * f (x * a / a)) / (x * a) + K / a / (x * a) * df x)).
    { assert (D1 : derivable_pt_lim (fun r => K / r) (x * a) (- K / (x * a * (x * a)))).
      { apply is_derive_Reals. auto_derive; [apply Rgt_not_eq, Rmult_lt_0_compat; assumption|]. field. split; lra. }
      assert (D2 : derivable_pt_lim (fun r => f (r / a)) (x * a) (df x * / a)).
      { apply (derivable_pt_lim_comp (fun r => r / a) f).
        - apply is_derive_Reals. auto_derive; [exact I|]. field. lra.
        - replace (x * a / a) with x by (field; lra). apply expsum_deriv. }
      pose proof (derivable_pt_lim_mult _ _ _ _ _ D1 D2) as M. cbv beta in M.
      replace (- (K / (x * a) * f (x * a / a)) / (x * a) + K / a / (x * a) * df x) with (- K / (x * a * (x * a)) * f (x * a / a) + K / (x * a) * (df x * / a)); [exact M|].
      field. split; lra. }
    apply is_derive_Reals. apply (is_derive_ext (fun r => K / r * f (r / a))).
    - intro r. rewrite PU. reflexivity.
    - apply is_derive_Reals. exact DW.
  Qed.
  Lemma sc_dV dV : derivable_pt_lim V (x * a) dV -> dV = - V (x * a) / (x * a) + K / a / (x * a) * df x.
  Proof. intro D. exact (uniqueness_limite V (x * a) _ _ D sc_DV). Qed.
  Lemma sc_dV_exists : exists dV, derivable_pt_lim V (x * a) dV.
  Proof. eexists. exact sc_DV. Qed.
  Definition curvature_sum (dV : R) : R := -2 * (E - V (x * a)) / dV.
  Lemma magic_value Ma Mb E0 dV c : 0 < Ma -> 0 < Mb -> E = E0 * Mb / (Ma + Mb) -> derivable_pt_lim V (x * a) dV ->
    magic_constants ip = Ok (C1 c, C2 c, C3 c, C4 c, C5 c) -> magic_pos c ->
    magic Za Zb Ma Mb E0 p x ip = Ok (magic_angle c e (p / a) x (curvature_sum dV / a)).
  Proof.
    intros Hma Hmb EE D HC MP. unfold magic. rewrite HC. cbn [bind]. cbv zeta. fold a. rewrite (dphi_R x ip Hs), (phi_R x ip Hs). fold f df. cbn [bind].
    pose proof sc_a as HA. pose proof sc_e as He. pose proof sc_K as HK.
    pose proof (potential_unique a Za Zb ip V Hs HV (x * a)) as VV. pose proof (sc_dV dV D) as DD. unfold K in DD.
    assert (Ee : E / (Za * Zb * cQ * cQ / 4 / PI / cEPS0 / a) = e).
    { unfold e, reduced_energy. clear -HK HA. set (k := _ / _ / _ / _) in *. clearbody k. field. split; lra. }
    toR. rewrite ?nZ_R. change (@npi R NumR) with PI. rewrite <- EE. clear K. set (K := Za * Zb * cQ * cQ / 4 / PI / cEPS0) in *. clearbody K.
    rewrite Ee. rewrite npowf_pos by (apply Rdiv_lt_0_compat; assumption).
    assert (X : x * a / a = x) by (field; lra). rewrite X in VV. fold f in VV.
    assert (EV : K / a * a / (a * x) * f x = V (x * a)) by (rewrite VV; field; split; lra). rewrite EV.
    assert (ED : - V (x * a) / (a * x) + K / a / (a * x) * df x = dV) by (rewrite DD, (Rmult_comm a x); reflexivity).
    unfold magic_angle, curvature_sum, magic_correction. cbv zeta.
    destruct MP as (H1 & H2 & H3 & H4 & H5 & H6). pose proof (sqrt_lt_R0 _ He) as Hq.
    assert (Ap : 0 < 2 * (1 + C1 c / sqrt e) * e * Rpower (p / a) ((C2 c + sqrt e) / (C3 c + sqrt e))).
    { apply Rmult_lt_0_compat; [|unfold Rpower; apply exp_pos]. apply Rmult_lt_0_compat; [|exact He]. pose proof (Rdiv_lt_0_compat _ _ H1 Hq). lra. }
    set (A := 2 * (1 + C1 c / sqrt e) * e * Rpower (p / a) ((C2 c + sqrt e) / (C3 c + sqrt e))) in *. clearbody A.
    assert (Gp : 0 < (C5 c + e) / (C4 c + e)) by (apply Rdiv_lt_0_compat; lra).
    destruct (magic_shape A _ Ap Gp) as (E1 & E2 & E3). replace (/ ((C5 c + e) / (C4 c + e))) with ((C4 c + e) / (C5 c + e)) in E1 by (field; lra).
    match goal with |- Ok ?l = Ok ?r => enough (l = r) as Q by (rewrite Q; reflexivity) end. f_equal. rewrite ED, E1. change (@nacos R NumR) with acos. f_equal. f_equal. f_equal. unfold Rdiv. ring.
  Qed.
  Lemma sc_curvature dV : derivable_pt_lim V (x * a) dV -> 0 < curvature_sum dV.
  Proof.
    intro D. pose proof (sc_dV dV D) as DD. unfold K in DD. pose proof sc_a as HA. pose proof sc_r0 as HR0. pose proof sc_e as He. pose proof sc_b as HB. pose proof (Rmult_lt_0_compat _ _ HB HB) as HBB.
    pose proof (sc_VE x Hx) as VE. pose proof sc_turn as T. pose proof sc_b1 as B1. rewrite T in VE.
    assert (VV : V (x * a) = E * (1 - b * b)) by (rewrite <- VE; field; lra).
    assert (P1 : 0 < V (x * a) / (x * a)) by (rewrite VV; apply Rdiv_lt_0_compat; [apply Rmult_lt_0_compat; lra|exact HR0]).
    assert (P2 : 0 < Za * Zb * cQ * cQ / 4 / PI / cEPS0 / a / (x * a) * - df x).
    { apply Rmult_lt_0_compat; [|pose proof (sc_dfneg x); lra]. apply Rdiv_lt_0_compat; [|exact HR0]. apply Rdiv_lt_0_compat; [exact sc_K|exact HA]. }
    assert (N : dV < 0) by (rewrite DD; unfold Rdiv in *; lra).
    unfold curvature_sum. rewrite VV. replace (-2 * (E - E * (1 - b * b)) / dV) with (2 * (E * (b * b)) / - dV) by (field; lra).
    apply Rdiv_lt_0_compat; [|lra]. apply Rmult_lt_0_compat; [lra|]. apply Rmult_lt_0_compat; assumption.
  Qed.
End Screened.

(** ** the substitution r = r0 / cos (pi t / 2) *)
Section Substitution.
  Context (V : R -> R) (E p r0 : R) (Hr : 0 < r0)
    (HC : forall r, r0 < r -> continuous V r) (HR : forall u, 0 < u < 1 -> 0 < radial V E p r0 u).
  Lemma substitution s t : 0 < s -> s <= t -> t < 1 ->
    RInt (scattering_density V E p) (r0 / cos (PI / 2 * s)) (r0 / cos (PI / 2 * t)) = PI * p / r0 * RInt (flight V E p r0) s t.
  Proof.
    intros Hs Hst Ht1. pose proof PI_bounds as HP.
    assert (RG : forall y, s <= y <= t -> 0 < cos (PI / 2 * y) < 1 /\ 0 < sin (PI / 2 * y)).
    { intros y Hy. assert (T1 : 0 < PI / 2 * y) by (apply Rmult_lt_0_compat; lra).
      assert (T2 : PI / 2 * y < PI / 2 * 1) by (apply Rmult_lt_compat_l; lra).
      assert (C0 : 0 < cos (PI / 2 * y)) by (apply cos_gt_0; lra).
      assert (C1 : cos (PI / 2 * y) < cos 0) by (apply cos_decreasing_1; lra). rewrite cos_0 in C1.
      assert (S0 : 0 < sin (PI / 2 * y)) by (apply sin_gt_0; lra). lra. }
    assert (FC : forall y, s <= y <= t -> continuous V (r0 / cos (PI / 2 * y))).
    { intros y Hy. destruct (RG y Hy) as ((C0 & C1) & _). apply HC. apply Rmult_lt_reg_r with (cos (PI / 2 * y)); [exact C0|].
      replace (r0 / cos (PI / 2 * y) * cos (PI / 2 * y)) with r0 by (field; lra). rewrite <- (Rmult_1_r r0) at 2. apply Rmult_lt_compat_l; assumption. }
    assert (PS : forall y, s <= y <= t -> 0 < 1 - V (r0 / cos (PI / 2 * y)) / E - p / (r0 / cos (PI / 2 * y)) * (p / (r0 / cos (PI / 2 * y)))).
    { intros y Hy. destruct (RG y Hy) as ((C0 & C1) & _). pose proof (HR _ (conj C0 C1)) as K. unfold radial in K.
      replace (p / (r0 / cos (PI / 2 * y))) with (p * cos (PI / 2 * y) / r0) by (field; lra). exact K. }
    rewrite <- (RInt_comp (scattering_density V E p) (fun y => r0 / cos (PI / 2 * y)) (fun y => r0 * (PI / 2) * sin (PI / 2 * y) / (cos (PI / 2 * y) * cos (PI / 2 * y)))).
    - rewrite <- (RInt_scal (V := R_CompleteNormedModule)).
      + apply RInt_ext. rewrite Rmin_left, Rmax_right by lra. intros y Hy. destruct (RG y ltac:(lra)) as ((C0 & C1) & S0).
        unfold flight, scattering_density, radial. pose proof (sqrt_lt_R0 _ (PS y ltac:(lra))) as Q.
        replace (p * cos (PI / 2 * y) / r0) with (p / (r0 / cos (PI / 2 * y))) by (field; lra).
        unfold scal; cbn; unfold mult; cbn. field. repeat split; lra.
      + apply (ex_RInt_continuous (V := R_CompleteNormedModule)). rewrite Rmin_left, Rmax_right by lra. intros y Hy. destruct (RG y Hy) as ((C0 & C1) & S0).
        unfold flight. apply (continuous_mult (fun y => sin (PI / 2 * y)) (fun y => / sqrt (radial V E p r0 (cos (PI / 2 * y))))).
        * apply (ex_derive_continuous (fun y => sin (PI / 2 * y))). auto_derive. exact I.
        * apply (continuous_comp (fun y => sqrt (radial V E p r0 (cos (PI / 2 * y)))) Rinv).
          -- apply (continuous_comp (fun y => radial V E p r0 (cos (PI / 2 * y))) sqrt); [|apply continuous_sqrt].
             unfold radial. apply (continuous_minus (fun y => 1 - V (r0 / cos (PI / 2 * y)) / E) (fun y => p * cos (PI / 2 * y) / r0 * (p * cos (PI / 2 * y) / r0))).
             ++ apply (continuous_minus (fun _ => 1) (fun y => V (r0 / cos (PI / 2 * y)) / E)); [apply continuous_const|].
                apply (continuous_mult (fun y => V (r0 / cos (PI / 2 * y))) (fun _ => / E)); [|apply continuous_const].
                apply (continuous_comp (fun y => r0 / cos (PI / 2 * y)) V); [|apply FC; exact Hy].
                apply (ex_derive_continuous (fun y => r0 / cos (PI / 2 * y))). auto_derive. lra.
             ++ apply (ex_derive_continuous (fun y => p * cos (PI / 2 * y) / r0 * (p * cos (PI / 2 * y) / r0))). auto_derive. exact I.
          -- apply continuous_Rinv. apply Rgt_not_eq, sqrt_lt_R0, HR. split; assumption.
    - rewrite Rmin_left, Rmax_right by lra. intros y Hy. destruct (RG y Hy) as ((C0 & C1) & S0). unfold scattering_density.
      assert (RP : 0 < r0 / cos (PI / 2 * y)) by (apply Rdiv_lt_0_compat; assumption). specialize (PS y Hy). specialize (FC y Hy).
      set (r := r0 / cos (PI / 2 * y)) in *.
      apply (continuous_mult (fun _ => 2 * p) (fun r => / (r * r * sqrt (1 - V r / E - p / r * (p / r))))); [apply continuous_const|].
      apply (continuous_comp (fun r => r * r * sqrt (1 - V r / E - p / r * (p / r))) Rinv).
      + apply (continuous_mult (fun r => r * r) (fun r => sqrt (1 - V r / E - p / r * (p / r)))).
        * apply (ex_derive_continuous (fun r => r * r)). auto_derive. exact I.
        * apply (continuous_comp (fun r => 1 - V r / E - p / r * (p / r)) sqrt); [|apply continuous_sqrt].
          apply (continuous_minus (fun r => 1 - V r / E) (fun r => p / r * (p / r))).
          -- apply (continuous_minus (fun _ => 1) (fun r => V r / E)); [apply continuous_const|].
             apply (continuous_mult V (fun _ => / E)); [exact FC|apply continuous_const].
          -- apply (ex_derive_continuous (fun r => p / r * (p / r))). auto_derive. lra.
      + apply continuous_Rinv. apply Rgt_not_eq, Rmult_lt_0_compat; [apply Rmult_lt_0_compat; exact RP|apply sqrt_lt_R0; exact PS].
    - rewrite Rmin_left, Rmax_right by lra. intros y Hy. destruct (RG y Hy) as ((C0 & C1) & S0). split.
      + auto_derive; [lra|]. field. lra.
      + apply (ex_derive_continuous (fun y => r0 * (PI / 2) * sin (PI / 2 * y) / (cos (PI / 2 * y) * cos (PI / 2 * y)))). auto_derive. apply Rgt_not_eq, Rmult_lt_0_compat; assumption.
  Qed.
End Substitution.
