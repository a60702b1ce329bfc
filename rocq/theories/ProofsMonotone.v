(** * ProofsMonotone.v - closer collisions deflect more (C122) *)
From Coquelicot Require Import Coquelicot.
From Coq Require Import ZArith List Bool Lia Reals Lra.
From Verif Require Import Num ModelTypes ModelConsts ModelInteractions ModelBca ProofsBase NumR SpecR SpecCollision SpecAngle
  ProofsInteractions ProofsNewton ProofsCollision PropertiesCollision ProofsAngle ProofsQuad.
Import ListNotations.
Open Scope nat_scope.
Open Scope R_scope.

(** positive, strictly decreasing, and steeper nearby than far away on the same relative scale *)
Definition repulsive (V : R -> R) : Prop :=
  (forall r, 0 < r -> 0 < V r) /\ (forall r s, 0 < r -> r < s -> V s < V r) /\
  (forall c r s, 1 <= c -> 0 < r -> r < s -> V (c * r) - V (c * s) <= V r - V s).

Section Repulsive.
  Context (V : R -> R) (E : R) (HE : 0 < E) (HV : repulsive V).
  Lemma turn_sq p r : 0 < r -> turning_point V E p r -> p / r * (p / r) = 1 - V r / E.
  Proof. unfold turning_point. lra. Qed.
  Lemma turn_order p1 p2 r1 r2 : 0 <= p1 -> p1 < p2 -> 0 < r1 -> 0 < r2 ->
    turning_point V E p1 r1 -> turning_point V E p2 r2 -> r1 < r2.
  Proof.
    intros H0 H1 R1 R2 T1 T2. destruct (Rlt_le_dec r1 r2) as [L|L]; [exact L|exfalso].
    apply turn_sq in T1; [|exact R1]. apply turn_sq in T2; [|exact R2].
    assert (D : V r1 <= V r2). { destruct L as [L| ->]; [apply Rlt_le, HV; assumption|lra]. }
    assert (Q : p2 / r2 * (p2 / r2) <= p1 / r1 * (p1 / r1)).
    { rewrite T1, T2. pose proof (Rmult_le_compat_r (/ E) _ _ (Rlt_le _ _ (Rinv_0_lt_compat _ HE)) D). unfold Rdiv. lra. }
    assert (S : p2 / r2 <= p1 / r1).
    { destruct (Rle_lt_dec (p2 / r2) (p1 / r1)) as [K|K]; [exact K|exfalso].
      assert (0 <= p1 / r1) by (apply Rmult_le_pos; [lra|apply Rlt_le, Rinv_0_lt_compat; lra]).
      pose proof (Rmult_le_0_lt_compat _ _ _ _ H H K K). lra. }
    assert (I : / r1 <= / r2) by (apply Rinv_le_contravar; lra).
    pose proof (Rinv_0_lt_compat _ R1) as P1. pose proof (Rinv_0_lt_compat _ R2) as P2. unfold Rdiv in S.
    pose proof (Rmult_lt_compat_r (/ r2) p1 p2 P2 H1). pose proof (Rmult_le_compat_l p1 _ _ H0 I). lra.
  Qed.
  Lemma rep_far r u : 0 < r -> 0 < u < 1 -> V (r / u) / E < V r / E /\ 0 < V (r / u) / E.
  Proof.
    intros Hr Hu. pose proof (Rinv_0_lt_compat _ HE) as P.
    assert (L : r < r / u). { apply Rmult_lt_reg_r with u; [lra|]. replace (r / u * u) with r by (field; lra). pose proof (Rmult_lt_compat_l r u 1 Hr ltac:(lra)). lra. }
    split; [apply Rmult_lt_compat_r; [exact P|apply HV; assumption]|]. apply Rmult_lt_0_compat; [apply HV; lra|exact P].
  Qed.
  Lemma rep_radial p r u : 0 <= p -> 0 < r -> turning_point V E p r -> 0 < u < 1 -> 0 < radial V E p r u.
  Proof.
    intros Hp Hr Ht Hu. apply turn_sq in Ht; [|exact Hr]. unfold radial. destruct (rep_far r u Hr Hu) as (F1 & F2).
    replace (p * u / r * (p * u / r)) with (p / r * (p / r) * (u * u)) by (field; lra). rewrite Ht.
    assert (0 <= 1 - V r / E). { rewrite <- Ht. apply Rle_0_sqr. }
    assert (u * u <= 1) by (pose proof (Rmult_le_compat u 1 u 1 ltac:(lra) ltac:(lra) ltac:(lra) ltac:(lra)); lra).
    pose proof (Rmult_le_compat_l (1 - V r / E) (u * u) 1 ltac:(lra) ltac:(lra)). lra.
  Qed.
  (** the transformed integrand grows with the impact parameter *)
  Lemma rep_term p1 p2 r1 r2 u : 0 <= p1 -> p1 < p2 -> 0 < r1 -> 0 < r2 ->
    turning_point V E p1 r1 -> turning_point V E p2 r2 -> 0 < u < 1 ->
    p1 / r1 / sqrt (radial V E p1 r1 u) < p2 / r2 / sqrt (radial V E p2 r2 u).
  Proof.
    intros H0 H1 R1 R2 T1 T2 Hu. pose proof (turn_order p1 p2 r1 r2 H0 H1 R1 R2 T1 T2) as L.
    pose proof (rep_radial p1 r1 u H0 R1 T1 Hu) as D1. pose proof (rep_radial p2 r2 u ltac:(lra) R2 T2 Hu) as D2.
    pose proof (sqrt_lt_R0 _ D1) as S1. pose proof (sqrt_lt_R0 _ D2) as S2.
    assert (B1 : 0 <= p1 / r1) by (apply Rmult_le_pos; [lra|apply Rlt_le, Rinv_0_lt_compat; lra]).
    assert (B2 : 0 < p2 / r2) by (apply Rdiv_lt_0_compat; lra).
    pose proof (turn_sq p1 r1 R1 T1) as Q1. pose proof (turn_sq p2 r2 R2 T2) as Q2.
    destruct (rep_far r1 u R1 Hu) as (F1 & G1). destruct (rep_far r2 u R2 Hu) as (F2 & G2).
    assert (C : V (r1 / u) / E - V (r2 / u) / E <= V r1 / E - V r2 / E).
    { pose proof (proj2 (proj2 HV) (/ u) r1 r2) as K.
      assert (1 <= / u). { rewrite <- Rinv_1 at 1. apply Rinv_le_contravar; lra. }
      specialize (K H R1 L). replace (/ u * r1) with (r1 / u) in K by (field; lra). replace (/ u * r2) with (r2 / u) in K by (field; lra).
      pose proof (Rmult_le_compat_r (/ E) _ _ (Rlt_le _ _ (Rinv_0_lt_compat _ HE)) K). unfold Rdiv. lra. }
    assert (Dl : V r2 / E < V r1 / E) by (apply Rmult_lt_compat_r; [apply Rinv_0_lt_compat; exact HE|apply HV; assumption]).
    set (v1 := V r1 / E) in *. set (v2 := V r2 / E) in *. set (w1 := V (r1 / u) / E) in *. set (w2 := V (r2 / u) / E) in *.
    set (b1 := p1 / r1) in *. set (b2 := p2 / r2) in *. set (d1 := radial V E p1 r1 u) in *. set (d2 := radial V E p2 r2 u) in *.
    assert (X : (b1 * b1) * d2 < (b2 * b2) * d1).
    { replace d1 with (1 - w1 - b1 * b1 * (u * u)) by (unfold d1, b1, w1, radial; field; lra).
      replace d2 with (1 - w2 - b2 * b2 * (u * u)) by (unfold d2, b2, w2, radial; field; lra).
      rewrite Q1, Q2. assert (V1 : 0 <= 1 - v1) by (rewrite <- Q1; apply Rle_0_sqr).
      assert (M : (w1 - w2) * (1 - v2) <= (v1 - v2) * (1 - v2)) by (apply Rmult_le_compat_r; lra).
      assert (N : 0 < (v1 - v2) * (v2 - w2)) by (apply Rmult_lt_0_compat; lra). lra. }
    apply Rnot_le_lt. intro K.
    assert (K' : b2 * sqrt d1 <= b1 * sqrt d2).
    { apply (Rmult_le_compat_r (sqrt d1 * sqrt d2)) in K; [|apply Rlt_le, Rmult_lt_0_compat; assumption].
      replace (b2 / sqrt d2 * (sqrt d1 * sqrt d2)) with (b2 * sqrt d1) in K by (field; lra).
      replace (b1 / sqrt d1 * (sqrt d1 * sqrt d2)) with (b1 * sqrt d2) in K by (field; lra). exact K. }
    assert (P : 0 <= b2 * sqrt d1) by (apply Rlt_le, Rmult_lt_0_compat; assumption).
    pose proof (Rmult_le_compat _ _ _ _ P P K' K') as K2.
    replace (b2 * sqrt d1 * (b2 * sqrt d1)) with (b2 * b2 * (sqrt d1 * sqrt d1)) in K2 by ring.
    replace (b1 * sqrt d2 * (b1 * sqrt d2)) with (b1 * b1 * (sqrt d2 * sqrt d2)) in K2 by ring.
    rewrite !sqrt_sqrt in K2 by lra. lra.
  Qed.
  Lemma rep_b p1 p2 r1 r2 : 0 <= p1 -> p1 < p2 -> 0 < r1 -> 0 < r2 ->
    turning_point V E p1 r1 -> turning_point V E p2 r2 -> p1 / r1 < p2 / r2.
  Proof.
    intros H0 H1 R1 R2 T1 T2. pose proof (turn_order p1 p2 r1 r2 H0 H1 R1 R2 T1 T2) as L.
    apply turn_sq in T1; [|exact R1]. apply turn_sq in T2; [|exact R2].
    assert (Dl : V r2 / E < V r1 / E) by (apply Rmult_lt_compat_r; [apply Rinv_0_lt_compat; exact HE|apply HV; assumption]).
    apply Rnot_le_lt. intro K. assert (P : 0 <= p2 / r2) by (apply Rmult_le_pos; [lra|apply Rlt_le, Rinv_0_lt_compat; lra]).
    pose proof (Rmult_le_compat _ _ _ _ P P K K). lra.
  Qed.
  (** ** Gauss-Mehler *)
  Lemma rep_gm p1 p2 r1 r2 n : (0 < n)%nat -> 0 <= p1 -> p1 < p2 -> 0 < r1 -> 0 < r2 ->
    turning_point V E p1 r1 -> turning_point V E p2 r2 ->
    Rsum (map (gm_term p1 E r1 V n) (seq 1 n)) < Rsum (map (gm_term p2 E r2 V n) (seq 1 n)).
  Proof.
    intros Hn H0 H1 R1 R2 T1 T2.
    assert (T : forall i, (1 <= i <= n)%nat -> gm_term p1 E r1 V n i < gm_term p2 E r2 V n i).
    { intros i Hi. destruct (gm_sc n i Hi) as (Hsn & Hc). unfold gm_term. apply Rmult_lt_compat_l.
      - apply Rmult_lt_0_compat; [apply Rdiv_lt_0_compat; [apply PI_RGT_0|apply lt_0_INR; exact Hn]|exact Hsn].
      - apply (rep_term p1 p2 r1 r2 _ H0 H1 R1 R2 T1 T2 Hc). }
    assert (G : forall l, (forall i, In i l -> (1 <= i <= n)%nat) -> Rsum (map (gm_term p1 E r1 V n) l) <= Rsum (map (gm_term p2 E r2 V n) l) /\
      (l <> [] -> Rsum (map (gm_term p1 E r1 V n) l) < Rsum (map (gm_term p2 E r2 V n) l))).
    { induction l as [|i l IH]; intros Hl; [split; [apply Rle_refl|congruence]|].
      destruct (IH (fun j Hj => Hl j (or_intror Hj))) as (I1 & _). pose proof (T i (Hl i (or_introl eq_refl))).
      cbn [map]. unfold Rsum in *. cbn [fold_right]. split; [lra|intros _; lra]. }
    apply G; [intros i Hi; apply in_seq in Hi; lia|]. destruct n; [lia|discriminate].
  Qed.
  (** ** Gauss-Legendre *)
  Definition gl_value (p r u : R) : R := 4 * p * u / (r * sqrt (1 - V (r / (1 - u * u)) / E - p * p * ((1 - u * u) * (1 - u * u)) / r / r)).
  Lemma rep_gl p1 p2 r1 r2 : 0 <= p1 -> p1 < p2 -> 0 < r1 -> 0 < r2 ->
    turning_point V E p1 r1 -> turning_point V E p2 r2 -> rule (gl_value p1 r1) < rule (gl_value p2 r2).
  Proof.
    intros H0 H1 R1 R2 T1 T2.
    assert (A : forall p r u, 0 <= p -> 0 < r -> turning_point V E p r -> 0 < u < 1 ->
      gl_value p r u = 4 * u * (p / r / sqrt (radial V E p r (1 - u * u)))).
    { intros p r u Hp Hr Ht Hu. unfold gl_value.
      replace (1 - V (r / (1 - u * u)) / E - p * p * ((1 - u * u) * (1 - u * u)) / r / r) with (radial V E p r (1 - u * u)) by (unfold radial; field; lra).
      assert (0 < u * u < 1). { split; [apply Rmult_lt_0_compat; lra|]. pose proof (Rmult_lt_compat_l u u 1 ltac:(lra) ltac:(lra)). lra. }
      pose proof (sqrt_lt_R0 _ (rep_radial p r (1 - u * u) Hp Hr Ht ltac:(lra))). field. lra. }
    assert (T : forall u, 0 < u < 1 -> gl_value p1 r1 u < gl_value p2 r2 u).
    { intros u Hu. rewrite (A p1 r1), (A p2 r2) by (assumption || lra). apply Rmult_lt_compat_l; [lra|].
      assert (0 < u * u < 1). { split; [apply Rmult_lt_0_compat; lra|]. pose proof (Rmult_lt_compat_l u u 1 ltac:(lra) ltac:(lra)). lra. }
      apply rep_term; try assumption. lra. }
    unfold rule. pose proof (T (1 / 2) ltac:(lra)). pose proof (T (461531 / 2000000) ltac:(lra)). pose proof (T (1538469 / 2000000) ltac:(lra)).
    pose proof (T (9382 / 200000) ltac:(lra)). pose proof (T (190618 / 200000) ltac:(lra)). lra.
  Qed.
End Repulsive.

(** ** screened and pure Coulomb potentials are repulsive in this sense *)
Lemma exp_over_scaled d r s c : 0 <= d -> 1 <= c -> 0 < r -> r < s ->
  exp (- d * (c * r)) / (c * r) - exp (- d * (c * s)) / (c * s) <= exp (- d * r) / r - exp (- d * s) / s.
Proof.
  intros Hd Hc Hr Hs. destruct Hc as [Hc| <-]; [|rewrite !Rmult_1_l; lra].
  set (h := fun c => exp (- d * (c * r)) / (c * r) - exp (- d * (c * s)) / (c * s)).
  set (h' := fun c => - (exp (- d * (c * r)) * (/ (c * r) + d)) / c + (exp (- d * (c * s)) * (/ (c * s) + d)) / c).
  assert (D : forall y, 1 <= y <= c -> derivable_pt_lim h y (h' y)).
  { intros y Hy. apply is_derive_Reals. unfold h, h'. auto_derive.
    - repeat split; apply Rgt_not_eq, Rmult_lt_0_compat; lra.
    - field. repeat split; lra. }
  destruct (MVT_cor2 h h' 1 c Hc D) as (y & Q & Hy).
  assert (N : h' y <= 0).
  { unfold h'. assert (L : exp (- d * (y * s)) * (/ (y * s) + d) <= exp (- d * (y * r)) * (/ (y * r) + d)).
    { assert (0 < y * r) by (apply Rmult_lt_0_compat; lra). assert (y * r < y * s) by (apply Rmult_lt_compat_l; lra).
      apply Rmult_le_compat.
      - apply Rlt_le, exp_pos.
      - pose proof (Rinv_0_lt_compat (y * s) ltac:(lra)). lra.
      - destruct Hd as [Hd| <-]; [|replace (- 0 * (y * s)) with (- 0 * (y * r)) by ring; apply Rle_refl].
        apply Rlt_le, exp_increasing. pose proof (Rmult_lt_compat_l d _ _ Hd H0). lra.
      - pose proof (Rinv_le_contravar (y * r) (y * s) ltac:(lra) ltac:(lra)). lra. }
    apply (Rmult_le_compat_r (/ y)) in L; [|apply Rlt_le, Rinv_0_lt_compat; lra]. unfold Rdiv. lra. }
  assert (0 <= - h' y * (c - 1)) by (apply Rmult_le_pos; lra).
  assert (h c <= h 1) by lra. unfold h in H0. rewrite !Rmult_1_l in H0. exact H0.
Qed.
Lemma expsum_scaled l a r s c : pos_terms l -> 0 < a -> 1 <= c -> 0 < r -> r < s ->
  expsum l (c * r / a) / (c * r) - expsum l (c * s / a) / (c * s) <= expsum l (r / a) / r - expsum l (s / a) / s.
Proof.
  intros (_ & Hl) Ha Hc Hr Hs. induction Hl as [|[k d] l (Hk & Hd) Hl IH].
  - unfold expsum, Rsum; cbn [map fold_right]. unfold Rdiv. rewrite !Rmult_0_l. lra.
  - rewrite !expsum_cons. cbn [fst snd] in *.
    assert (Hda : 0 <= d / a) by (apply Rlt_le, Rdiv_lt_0_compat; assumption).
    pose proof (Rmult_le_compat_l k _ _ (Rlt_le _ _ Hk) (exp_over_scaled (d / a) r s c Hda Hc Hr Hs)) as H.
    replace (- d * (c * r / a)) with (- (d / a) * (c * r)) by (field; lra). replace (- d * (c * s / a)) with (- (d / a) * (c * s)) by (field; lra).
    replace (- d * (r / a)) with (- (d / a) * r) by (field; lra). replace (- d * (s / a)) with (- (d / a) * s) by (field; lra).
    unfold Rdiv in *. lra.
Qed.
Lemma screened_repulsive Za Zb ip V : screened ip -> 0 < Za -> 0 < Zb -> is_potential (screening_length Za Zb ip) Za Zb ip V -> repulsive V.
Proof.
  intros Hs Ha Hb HV. set (a := screening_length Za Zb ip) in *. pose proof (screening_length_pos Za Zb ip Hs Ha Hb) as HA. fold a in HA.
  pose proof (sc_K Za Zb Ha Hb) as HK. set (K := Za * Zb * cQ * cQ / 4 / PI / cEPS0) in *.
  assert (U : forall r, V r = K / r * expsum (screening_terms ip) (r / a)) by (intro r; apply (potential_unique a Za Zb ip V Hs HV)).
  pose proof (screened_decreasing Za Zb a ip Hs Ha Hb HA) as D. cbv zeta in D. fold K in D.
  split; [|split].
  - intros r Hr. rewrite U. apply Rmult_lt_0_compat; [apply Rdiv_lt_0_compat; assumption|apply expsum_pos, screening_terms_pos; exact Hs].
  - intros r s Hr Hrs. rewrite !U. apply (D r s Hr Hrs).
  - intros c r s Hc Hr Hrs. rewrite !U.
    pose proof (Rmult_le_compat_l K _ _ (Rlt_le _ _ HK) (expsum_scaled _ a r s c (screening_terms_pos ip Hs) HA Hc Hr Hrs)) as H.
    unfold Rdiv in *. lra.
Qed.
Lemma coulomb_repulsive K V : 0 < K -> (forall r, 0 < r -> V r = K / r) -> repulsive V.
Proof.
  intros HK U. split; [|split].
  - intros r Hr. rewrite U by exact Hr. apply Rdiv_lt_0_compat; assumption.
  - intros r s Hr Hs. rewrite !U by lra. apply Rmult_lt_compat_l; [exact HK|]. apply Rinv_lt_contravar; [apply Rmult_lt_0_compat; lra|exact Hs].
  - intros c r s Hc Hr Hs. rewrite !U by (lra || apply Rmult_lt_0_compat; lra).
    assert (P : 0 <= K / r - K / s).
    { assert (/ s < / r) by (apply Rinv_lt_contravar; [apply Rmult_lt_0_compat; lra|exact Hs]). pose proof (Rmult_lt_compat_l K _ _ HK H). unfold Rdiv. lra. }
    replace (K / (c * r) - K / (c * s)) with (/ c * (K / r - K / s)) by (field; lra).
    assert (/ c <= 1). { rewrite <- Rinv_1. apply Rinv_le_contravar; lra. }
    pose proof (Rmult_le_compat_r _ _ _ P H). lra.
Qed.

(** ** the angle of each quadrature *)
Lemma gm_angle_value Za Zb Ma Mb E0 p x ip n V : is_potential (screening_length Za Zb ip) Za Zb ip V ->
  gauss_mehler Za Zb Ma Mb E0 p x ip n =
  Ok (PI - Rsum (map (gm_term p (E0 * Mb / (Ma + Mb)) (x * screening_length Za Zb ip) V n) (seq 1 n))).
Proof. intro HV. unfold gauss_mehler. cbv zeta. apply gauss_mehler_R. intro r. apply HV. Qed.
Lemma gl_angle_value Za Zb Ma Mb E0 p x ip V : is_potential (screening_length Za Zb ip) Za Zb ip V ->
  gauss_legendre Za Zb Ma Mb E0 p x ip =
  Ok (PI - rule (gl_value V (E0 * Mb / (Ma + Mb)) p (x * screening_length Za Zb ip))).
Proof.
  intro HV. unfold gauss_legendre. cbv zeta. apply gl_fun. intro u. unfold scattering_function_gl. rewrite (HV _). cbn [bind].
  change (nis_nan _) with false. cbv iota. unfold gl_value. toR. reflexivity.
Qed.
Section MW.
  Context (Za Zb Ma Mb E0 : R) (ip : InteractionPotential R) (V : R -> R)
    (Hs : screened ip) (Ha : 0 < Za) (Hb : 0 < Zb) (Hma : 0 < Ma) (Hmb : 0 < Mb) (HE0 : 0 < E0).
  Let a := screening_length Za Zb ip.
  Let E := E0 * Mb / (Ma + Mb).
  Context (HV : is_potential a Za Zb ip V).
  Lemma mm_E : 0 < E.
  Proof. unfold E; apply Rdiv_lt_0_compat; [apply Rmult_lt_0_compat; assumption|lra]. Qed.
  Lemma mw_head_on x : scattering_angle Za Zb Ma Mb E0 0 x ip MENDENHALL_WELLER = Ok PI.
  Proof.
    unfold scattering_angle, mendenhall_weller. cbv zeta. unfold scattering_integral_mw. rewrite (dphi_R x ip Hs). rewrite !(phi_R _ ip Hs). cbn [bind].
    f_equal. toR. change (@npi R NumR) with PI. unfold Rdiv. rewrite !Rmult_0_l. ring.
  Qed.
  Lemma mw_mono p1 p2 x1 x2 : 0 <= p1 -> p1 < p2 -> 0 < x1 -> 0 < x2 ->
    turning_point V E p1 (x1 * a) -> turning_point V E p2 (x2 * a) ->
    exists t1 t2, scattering_angle Za Zb Ma Mb E0 p1 x1 ip MENDENHALL_WELLER = Ok t1 /\
      scattering_angle Za Zb Ma Mb E0 p2 x2 ip MENDENHALL_WELLER = Ok t2 /\ 0 <= t2 /\ t2 < t1 /\ t1 <= PI.
  Proof.
    intros H0 H1 X1 X2 T1 T2. pose proof mm_E as HE. pose proof (screening_length_pos Za Zb ip Hs Ha Hb) as HA. fold a in HA.
    pose proof (screened_repulsive Za Zb ip V Hs Ha Hb HV) as HR. pose proof PI_RGT_0 as HP.
    assert (R1 : 0 < x1 * a) by (apply Rmult_lt_0_compat; assumption). assert (R2 : 0 < x2 * a) by (apply Rmult_lt_0_compat; assumption).
    pose proof (mw_value Za Zb E p2 x2 ip V Hs Ha Hb HE ltac:(lra) X2 HV T2 Ma Mb E0 Hma Hmb eq_refl) as V2.
    pose proof (mw_sum_bound Za Zb E p2 x2 ip V Hs Ha Hb HE ltac:(lra) X2 HV T2) as B2.
    set (q2 := _ * mw_sum _ _) in B2, V2.
    destruct (Req_dec p1 0) as [-> |N1].
    - exists PI, (PI * (1 - q2)). split; [apply mw_head_on|]. split; [exact V2|]. split; [apply Rmult_le_pos; lra|]. split; [|lra].
      assert (0 < q2); [|pose proof (Rmult_lt_0_compat _ _ HP H); lra].
      unfold q2, mw_sum. assert (0 < p2 / (x2 * screening_length Za Zb ip)) by (fold a; apply Rdiv_lt_0_compat; lra).
      apply Rmult_lt_0_compat; [exact H|].
      pose proof (sc_m Za Zb E p2 x2 ip Hs Ha Hb HE) as Hm. cbv zeta in Hm.
      match goal with |- 0 < / 12 * (/ sqrt ?m + 1) + _ => assert (Hm' : 0 <= / sqrt m) end.
      { destruct (Req_dec (sqrt (1 / 2 + p2 / (x2 * screening_length Za Zb ip) * (p2 / (x2 * screening_length Za Zb ip)) / 2 - dexpsum (screening_terms ip) x2 / 2 / reduced_energy (screening_length Za Zb ip) Za Zb E)) 0) as [Z|Z].
        - fold a in Z. fold a. rewrite Z, Rinv_0. lra.
        - apply Rlt_le, Rinv_0_lt_compat. pose proof (sqrt_pos (1 / 2 + p2 / (x2 * screening_length Za Zb ip) * (p2 / (x2 * screening_length Za Zb ip)) / 2 - dexpsum (screening_terms ip) x2 / 2 / reduced_energy (screening_length Za Zb ip) Za Zb E)). lra. }
      assert (Q : forall u, 0 < u < 1 -> 0 < / sqrt (radial V E p2 (x2 * screening_length Za Zb ip) u)).
      { intros u Hu. apply Rinv_0_lt_compat, sqrt_lt_R0, rep_radial; try assumption. lra. }
      pose proof (Q (9072 / 10000) ltac:(lra)). pose proof (Q (4206 / 10000) ltac:(lra)). lra.
    - assert (P1 : 0 < p1) by lra.
      pose proof (mw_value Za Zb E p1 x1 ip V Hs Ha Hb HE P1 X1 HV T1 Ma Mb E0 Hma Hmb eq_refl) as V1.
      pose proof (mw_sum_bound Za Zb E p1 x1 ip V Hs Ha Hb HE P1 X1 HV T1) as B1.
      set (q1 := p1 / (x1 * screening_length Za Zb ip) * mw_sum _ _) in B1, V1.
      exists (PI * (1 - q1)), (PI * (1 - q2)). split; [exact V1|]. split; [exact V2|].
      assert (L : q1 < q2).
      { pose proof (turn_order V E HE HR p1 p2 _ _ H0 H1 R1 R2 T1 T2) as LX.
        pose proof (rep_b V E HE HR p1 p2 _ _ H0 H1 R1 R2 T1 T2) as LB.
        pose proof (rep_term V E HE HR p1 p2 _ _ (9072 / 10000) H0 H1 R1 R2 T1 T2 ltac:(lra)) as L1.
        pose proof (rep_term V E HE HR p1 p2 _ _ (4206 / 10000) H0 H1 R1 R2 T1 T2 ltac:(lra)) as L2.
        pose proof (sc_m Za Zb E p1 x1 ip Hs Ha Hb HE) as M1. cbv zeta in M1. fold a in M1.
        pose proof (sc_m Za Zb E p2 x2 ip Hs Ha Hb HE) as M2. cbv zeta in M2. fold a in M2.
        unfold q1, q2, mw_sum. fold a.
        set (m1 := 1 / 2 + p1 / (x1 * a) * (p1 / (x1 * a)) / 2 - _) in *. set (m2 := 1 / 2 + p2 / (x2 * a) * (p2 / (x2 * a)) / 2 - _) in *.
        assert (LX' : x1 <= x2) by (apply Rlt_le, (Rmult_lt_reg_r a); assumption).
        pose proof (dexpsum_incr _ _ _ (screening_terms_pos ip Hs) LX') as DI.
        pose proof (dexpsum_neg _ x2 (screening_terms_pos ip Hs)) as DN.
        pose proof (reduced_energy_pos a Za Zb E HA Ha Hb HE) as He. set (e := reduced_energy a Za Zb E) in *.
        assert (B0 : 0 < p1 / (x1 * a)) by (apply Rdiv_lt_0_compat; assumption).
        set (b1 := p1 / (x1 * a)) in *. set (b2 := p2 / (x2 * a)) in *.
        assert (BB1 : 0 < b1 * b1) by (apply Rmult_lt_0_compat; assumption).
        assert (BB : b1 * b1 < b2 * b2) by (apply Rmult_le_0_lt_compat; lra).
        set (k1 := - dexpsum (screening_terms ip) x1 / e) in *. set (k2 := - dexpsum (screening_terms ip) x2 / e) in *.
        assert (K2 : 0 < k2) by (apply Rdiv_lt_0_compat; lra).
        assert (K12 : k2 <= k1) by (apply Rmult_le_compat_r; [apply Rlt_le, Rinv_0_lt_compat; exact He|lra]).
        assert (E1 : m1 = (1 + b1 * b1 + k1) / 2) by (unfold m1, k1; field; lra).
        assert (E2 : m2 = (1 + b2 * b2 + k2) / 2) by (unfold m2, k2; field; lra).
        assert (LL : b1 * / sqrt m1 < b2 * / sqrt m2).
        { assert (S1 : 0 < sqrt m1) by (apply sqrt_lt_R0; lra). assert (S2 : 0 < sqrt m2) by (apply sqrt_lt_R0; lra).
          apply Rnot_le_lt. intro K.
          assert (K' : b2 * sqrt m1 <= b1 * sqrt m2).
          { apply (Rmult_le_compat_r (sqrt m1 * sqrt m2)) in K; [|apply Rlt_le, Rmult_lt_0_compat; assumption].
            replace (b2 * / sqrt m2 * (sqrt m1 * sqrt m2)) with (b2 * sqrt m1) in K by (field; lra).
            replace (b1 * / sqrt m1 * (sqrt m1 * sqrt m2)) with (b1 * sqrt m2) in K by (field; lra). exact K. }
          assert (P : 0 <= b2 * sqrt m1) by (apply Rlt_le, Rmult_lt_0_compat; lra).
          pose proof (Rmult_le_compat _ _ _ _ P P K' K') as KK.
          replace (b2 * sqrt m1 * (b2 * sqrt m1)) with (b2 * b2 * (sqrt m1 * sqrt m1)) in KK by ring.
          replace (b1 * sqrt m2 * (b1 * sqrt m2)) with (b1 * b1 * (sqrt m2 * sqrt m2)) in KK by ring.
          rewrite !sqrt_sqrt in KK by lra. rewrite E1, E2 in KK.
          pose proof (Rmult_le_compat (b1 * b1) (b2 * b2) k2 k1 ltac:(lra) ltac:(lra) ltac:(lra) K12). lra. }
        unfold Rdiv in L1, L2, LL. unfold Rdiv. lra. }
      split; [apply Rmult_le_pos; lra|]. split; [pose proof (Rmult_lt_compat_l PI q1 q2 HP L); lra|].
      assert (0 <= PI * q1) by (apply Rmult_le_pos; lra). lra.
  Qed.
End MW.
