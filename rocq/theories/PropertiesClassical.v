(** * PropertiesClassical.v - C118, C119: Gauss-Mehler angles converge to the classical angle *)
From Coquelicot Require Import Coquelicot.
From Coq Require Import ZArith List Bool Lia Reals Lra.
From Verif Require Import Num ModelTypes ModelConsts ModelInteractions ModelBca ProofsBase NumR SpecR SpecCollision SpecAngle SpecClassical
  ProofsInteractions ProofsNewton ProofsCollision PropertiesCollision ProofsAngle ProofsClassical.
Import ListNotations.
Open Scope nat_scope.
Open Scope R_scope.

(** ** C118 *)
Lemma sc_continuous Za Zb ip V : screened ip -> 0 < Za -> 0 < Zb -> is_potential (screening_length Za Zb ip) Za Zb ip V ->
  forall r, 0 < r -> continuous V r.
Proof.
  intros Hs Ha Hb HV r Hr. set (a := screening_length Za Zb ip) in *.
  apply (continuous_ext (fun r => Za * Zb * cQ * cQ / 4 / PI / cEPS0 / r * expsum (screening_terms ip) (r / a))).
  - intro r'. symmetry. apply potential_unique; assumption.
  - pose proof (screening_length_pos Za Zb ip Hs Ha Hb) as HA. fold a in HA.
    apply (continuous_mult (fun r => Za * Zb * cQ * cQ / 4 / PI / cEPS0 / r) (fun r => expsum (screening_terms ip) (r / a))).
    + apply (continuous_mult (fun _ => Za * Zb * cQ * cQ / 4 / PI / cEPS0) Rinv); [apply continuous_const|apply continuous_Rinv; lra].
    + apply (continuous_comp (fun r => r / a) (expsum (screening_terms ip))).
      * apply (continuous_mult (fun r => r) (fun _ => / a)); [apply continuous_id|apply continuous_const].
      * apply (ex_derive_continuous (expsum (screening_terms ip))). exists (dexpsum (screening_terms ip) (r / a)). apply is_derive_Reals, expsum_deriv.
Qed.
Theorem C118_gauss_mehler_converges :
  forall (Za Zb Ma Mb E0 p x : R) (ip : InteractionPotential R) (V : R -> R),
    screened ip -> 0 < Za -> 0 < Zb -> 0 < Ma -> 0 < Mb -> 0 < E0 -> 0 < p -> 0 < x ->
    let a := screening_length Za Zb ip in
    let E := E0 * Mb / (Ma + Mb) in
    is_potential a Za Zb ip V -> turning_point V E p (x * a) ->
    exists theta, classical_angle V E p (x * a) theta /\ 0 <= theta <= PI /\
      forall e, 0 < e -> exists n0, forall n, (n0 <= n)%nat ->
        exists theta_n, scattering_angle Za Zb Ma Mb E0 p x ip (GAUSS_MEHLER n) = Ok theta_n /\ Rabs (theta_n - theta) < e.
Proof.
  intros Za Zb Ma Mb E0 p x ip V Hs Ha Hb Hma Hmb HE0 Hp Hx a E HV Ht.
  assert (HE : 0 < E) by (unfold E; apply Rdiv_lt_0_compat; [apply Rmult_lt_0_compat; assumption|lra]).
  pose proof (sc_r0 Za Zb x ip Hs Ha Hb Hx) as R0. fold a in R0.
  destruct (cl_converges V E p (x * a) _ _ Hp R0
    (fun r Hr => sc_continuous Za Zb ip V Hs Ha Hb HV r (Rlt_trans _ _ _ R0 Hr))
    (sc_radial_pos Za Zb E p x ip V Hs Ha Hb HE Hp Hx HV Ht)
    (sc_start Za Zb E p x ip V Hs Ha Hb HE Hp Hx HV Ht) (sc_end Za Zb E p x ip V Hs Ha Hb HE Hp Hx HV Ht)) as (theta & Cl & Cv).
  exists theta. split; [exact Cl|]. split.
  - assert (B : forall e, 0 < e -> - e <= theta <= PI + e).
    { intros e He. destruct (Cv e He) as (n0 & N0 & N). specialize (N n0 (le_n n0)).
      pose proof (gm_angle_range V E p (x * a) n0 N0 HE Hp R0 Ht) as G.
      assert (D : forall r, x * a < r -> V r <= V (x * a)).
      { intros r Hr. pose proof (screened_decreasing Za Zb a ip Hs Ha Hb (screening_length_pos Za Zb ip Hs Ha Hb) (x * a) r R0 Hr) as (_ & Q).
        rewrite (potential_unique a Za Zb ip V Hs HV r), (potential_unique a Za Zb ip V Hs HV (x * a)). apply Rlt_le. exact Q. }
      specialize (G D). apply Rabs_def2 in N. lra. }
    split; apply le_epsilon; intros e He; specialize (B e He); lra.
  - intros e He. destruct (Cv e He) as (n0 & N0 & N). exists n0. intros n Hn.
    exists (PI - Rsum (map (gm_term p E (x * a) V n) (seq 1 n))). split; [|apply N; exact Hn].
    unfold scattering_angle, gauss_mehler. cbv zeta. fold a.
    rewrite (gauss_mehler_R p (E0 *! Mb /! (Ma +! Mb)) (x *! a) _ V n); [reflexivity|]. intro r. apply HV.
Qed.
Print Assumptions C118_gauss_mehler_converges.
(** there is only one classical angle *)
Theorem C118_classical_angle_is_unique :
  forall V E p r0 theta theta', classical_angle V E p r0 theta -> classical_angle V E p r0 theta' -> theta = theta'.
Proof.
  intros V E p r0 t t' H H'. unfold classical_angle in *.
  pose proof (is_RInt_gen_unique (V := R_CompleteNormedModule) _ _ H) as U. pose proof (is_RInt_gen_unique (V := R_CompleteNormedModule) _ _ H') as U'. rewrite U in U'. lra.
Qed.
Print Assumptions C118_classical_angle_is_unique.

(** ** C119 *)
Section Rutherford.
  Context (b : R) (Hb : 0 < b < 1).
  Let ka := sqrt 2 * b / sqrt (1 + b * b).
  Let g t := sqrt ((1 + cos (PI / 2 * t)) / (1 + b * b * cos (PI / 2 * t))).
  Lemma ru_bb : 0 < b * b < 1.
  Proof. split; [apply Rmult_lt_0_compat; lra|]. pose proof (Rmult_lt_compat_l b b 1 ltac:(lra) ltac:(lra)). lra. Qed.
  Lemma ru_ka : 0 < ka /\ ka * ka = 2 * (b * b) / (1 + b * b) /\ ka < 1.
  Proof.
    pose proof ru_bb as HB. assert (S2 : 0 < sqrt 2) by (apply sqrt_lt_R0; lra). assert (S1 : 0 < sqrt (1 + b * b)) by (apply sqrt_lt_R0; lra).
    assert (P : 0 < ka) by (unfold ka; apply Rdiv_lt_0_compat; [apply Rmult_lt_0_compat|]; lra).
    assert (Q : ka * ka = 2 * (b * b) / (1 + b * b)).
    { unfold ka. replace (sqrt 2 * b / sqrt (1 + b * b) * (sqrt 2 * b / sqrt (1 + b * b))) with ((sqrt 2 * sqrt 2) * (b * b) / (sqrt (1 + b * b) * sqrt (1 + b * b))) by (field; lra).
      rewrite !sqrt_sqrt by lra. reflexivity. }
    split; [exact P|]. split; [exact Q|]. destruct (Rlt_le_dec ka 1) as [L|L]; [exact L|exfalso].
    pose proof (Rmult_le_compat 1 ka 1 ka ltac:(lra) ltac:(lra) L L) as K. rewrite Q in K.
    apply (Rmult_le_compat_r (1 + b * b)) in K; [|lra]. replace (2 * (b * b) / (1 + b * b) * (1 + b * b)) with (2 * (b * b)) in K by (field; lra). lra.
  Qed.
  Lemma ru_cos t : 0 <= t <= 1 -> 0 <= cos (PI / 2 * t) <= 1 /\ 0 <= sin (PI / 4 * t) < 1 /\ 0 < cos (PI / 4 * t) /\ cos (PI / 2 * t) = 1 - 2 * (sin (PI / 4 * t) * sin (PI / 4 * t)).
  Proof.
    intro Ht. pose proof PI_RGT_0 as HP. assert (T1 : 0 <= PI / 4 * t) by (apply Rmult_le_pos; lra). assert (T2 : PI / 4 * t <= PI / 4 * 1) by (apply Rmult_le_compat_l; lra).
    assert (D : cos (PI / 2 * t) = 1 - 2 * (sin (PI / 4 * t) * sin (PI / 4 * t))).
    { replace (PI / 2 * t) with (2 * (PI / 4 * t)) by field. rewrite cos_2a_sin. ring. }
    assert (C : 0 < cos (PI / 4 * t)) by (apply cos_gt_0; lra).
    assert (S : 0 <= sin (PI / 4 * t)) by (apply sin_ge_0; lra).
    assert (S1 : sin (PI / 4 * t) < 1).
    { pose proof (sin2_cos2 (PI / 4 * t)) as SC. unfold Rsqr in SC. pose proof (Rmult_lt_0_compat _ _ C C).
      destruct (Rlt_le_dec (sin (PI / 4 * t)) 1) as [L|L]; [exact L|exfalso]. pose proof (Rmult_le_compat 1 _ 1 _ ltac:(lra) ltac:(lra) L L). lra. }
    repeat split; try assumption; try apply COS_bound. apply cos_ge_0; lra.
  Qed.
  Lemma ru_deriv t : 0 <= t <= 1 -> is_derive (fun t => 4 * asin (ka * sin (PI / 4 * t))) t (PI * b * g t).
  Proof.
    intro Ht. destruct (ru_cos t Ht) as (C2 & (S0 & S1) & C4 & D). destruct ru_ka as (K0 & KK & K1). pose proof ru_bb as HB.
    set (s := sin (PI / 4 * t)) in *.
    assert (KS : -1 < ka * s < 1).
    { pose proof (Rmult_le_pos ka s ltac:(lra) S0). split; [lra|]. pose proof (Rmult_le_compat ka 1 s 1 ltac:(lra) S0 ltac:(lra) ltac:(lra)).
      pose proof (Rmult_lt_compat_l ka s 1 K0 S1). lra. }
    assert (D1 : is_derive (fun t => ka * sin (PI / 4 * t)) t (ka * (PI / 4 * cos (PI / 4 * t)))) by (auto_derive; [exact I|ring]).
    assert (D2 : is_derive asin (ka * s) (/ sqrt (1 - ka * s * (ka * s)))).
    { apply is_derive_Reals. pose proof (derive_pt_eq_1 _ _ _ (derivable_pt_asin (ka * s) KS) (derive_pt_asin (ka * s) KS)) as Q.
      unfold Rsqr, Rdiv in Q. rewrite Rmult_1_l in Q. exact Q. }
    pose proof (is_derive_comp asin (fun t => ka * sin (PI / 4 * t)) t _ _ D2 D1) as D3.
    pose proof (is_derive_scal _ t 4 _ D3) as D4. unfold scal in D4; cbn in D4. unfold mult in D4; cbn in D4.
    match goal with |- is_derive _ _ ?v => match type of D4 with is_derive _ _ ?w => replace v with w; [exact D4|] end end.
    unfold g. rewrite D.
    assert (Q : (1 + (1 - 2 * (s * s))) / (1 + b * b * (1 - 2 * (s * s))) = (sqrt 2 * cos (PI / 4 * t) / sqrt (1 + b * b)) * (sqrt 2 * cos (PI / 4 * t) / sqrt (1 + b * b)) / (1 - ka * s * (ka * s))).
    { assert (S1' : 0 < sqrt (1 + b * b)) by (apply sqrt_lt_R0; lra).
      replace (sqrt 2 * cos (PI / 4 * t) / sqrt (1 + b * b) * (sqrt 2 * cos (PI / 4 * t) / sqrt (1 + b * b)))
        with ((sqrt 2 * sqrt 2) * (cos (PI / 4 * t) * cos (PI / 4 * t)) / (sqrt (1 + b * b) * sqrt (1 + b * b))) by (field; lra).
      rewrite !sqrt_sqrt by lra. replace (ka * s * (ka * s)) with (ka * ka * (s * s)) by ring. rewrite KK.
      pose proof (sin2_cos2 (PI / 4 * t)) as SC. unfold Rsqr in SC. fold s in SC. replace (cos (PI / 4 * t) * cos (PI / 4 * t)) with (1 - s * s) by lra.
      assert (0 <= s * s) by (apply Rmult_le_pos; lra). assert (s * s < 1) by (pose proof (Rmult_le_compat_l s s 1 S0 ltac:(lra)); lra).
      assert (b * b * (s * s) < 1 * 1) by (apply Rmult_le_0_lt_compat; lra).
      assert (0 <= b * b * (1 - s * s)) by (apply Rmult_le_pos; lra).
      field. repeat split; lra. }
    rewrite Q.
    assert (W : 0 < 1 - ka * s * (ka * s)).
    { assert (0 <= ka * s) by (apply Rmult_le_pos; lra). pose proof (Rmult_le_compat_l (ka * s) (ka * s) 1 ltac:(lra) ltac:(lra)). lra. }
    assert (S1' : 0 < sqrt (1 + b * b)) by (apply sqrt_lt_R0; lra). assert (S2 : 0 < sqrt 2) by (apply sqrt_lt_R0; lra).
    assert (N : 0 < sqrt 2 * cos (PI / 4 * t) / sqrt (1 + b * b)) by (apply Rdiv_lt_0_compat; [apply Rmult_lt_0_compat|]; assumption).
    rewrite sqrt_div by (try lra; apply Rlt_le, Rmult_lt_0_compat; exact N). rewrite sqrt_square by lra. unfold ka at 1.
    pose proof (sqrt_lt_R0 _ W). unfold Rdiv. field. split; lra.
  Qed.
  Lemma ru_cont t : 0 <= t <= 1 -> continuous g t.
  Proof.
    intro Ht. destruct (ru_cos t Ht) as (C2 & _). pose proof ru_bb as HB. unfold g.
    apply (continuous_comp (fun t => (1 + cos (PI / 2 * t)) / (1 + b * b * cos (PI / 2 * t))) sqrt); [|apply continuous_sqrt].
    apply (ex_derive_continuous (fun t => (1 + cos (PI / 2 * t)) / (1 + b * b * cos (PI / 2 * t)))). auto_derive.
    assert (0 <= b * b * cos (PI / 2 * t)) by (apply Rmult_le_pos; lra). lra.
  Qed.
  Lemma ru_integral : PI * b * RInt g 0 1 = 4 * atan b.
  Proof.
    pose proof PI_RGT_0 as HP. destruct ru_ka as (K0 & KK & K1). pose proof ru_bb as HB.
    rewrite <- (RInt_scal (V := R_CompleteNormedModule)).
    - assert (I : is_RInt (fun t => PI * b * g t) 0 1 (minus (4 * asin (ka * sin (PI / 4 * 1))) (4 * asin (ka * sin (PI / 4 * 0))))).
      { apply (is_RInt_derive (fun t => 4 * asin (ka * sin (PI / 4 * t)))).
        - rewrite Rmin_left, Rmax_right by lra. intros t Ht. apply ru_deriv. exact Ht.
        - rewrite Rmin_left, Rmax_right by lra. intros t Ht. apply (continuous_mult (fun _ => PI * b) g); [apply continuous_const|apply ru_cont; exact Ht]. }
      apply (is_RInt_unique (V := R_CompleteNormedModule)) in I. change (RInt (fun t => PI * b * g t) 0 1 = 4 * atan b). rewrite I. change minus with Rminus.
      rewrite Rmult_0_r, sin_0, Rmult_0_r, asin_0, Rmult_1_r, sin_PI4.
      assert (S1' : 0 < sqrt (1 + b * b)) by (apply sqrt_lt_R0; lra). assert (S2 : 0 < sqrt 2) by (apply sqrt_lt_R0; lra).
      replace (ka * (1 / sqrt 2)) with (sin (atan b)).
      + rewrite asin_sin; [match goal with |- ?l = ?r => change (@eq R l r) end; ring|]. pose proof (atan_bound b). lra.
      + rewrite sin_atan. unfold ka, Rsqr. field. split; lra.
    - apply (ex_RInt_continuous (V := R_CompleteNormedModule)). rewrite Rmin_left, Rmax_right by lra. intros t Ht. apply ru_cont. exact Ht.
  Qed.
  Lemma ru_tan : 0 < PI - 4 * atan b < PI /\ tan ((PI - 4 * atan b) / 2) = (1 - b * b) / (2 * b).
  Proof.
    pose proof PI_RGT_0 as HP. assert (A0 : 0 < atan b) by (rewrite <- atan_0; apply atan_increasing; lra).
    assert (A1 : atan b < PI / 4) by (rewrite <- atan_1; apply atan_increasing; lra). split; [lra|].
    replace ((PI - 4 * atan b) / 2) with (PI / 2 - 2 * atan b) by field. unfold tan. rewrite sin_shift, cos_shift.
    rewrite sin_2a, cos_2a. rewrite sin_atan, cos_atan. unfold Rsqr.
    pose proof ru_bb as HB. assert (S1 : 0 < sqrt (1 + b * b)) by (apply sqrt_lt_R0; lra). field. split; lra.
  Qed.
End Rutherford.

Lemma ru_flight E p r0 K V : 0 < E -> 0 < p -> 0 < r0 -> 0 < K -> (forall r, 0 < r -> V r = K / r) -> turning_point V E p r0 ->
  0 < p / r0 < 1 /\ K / (2 * E * p) = (1 - p / r0 * (p / r0)) / (2 * (p / r0)) /\
  (forall u, 0 < u -> radial V E p r0 u = (1 - u) * (1 + p / r0 * (p / r0) * u)) /\
  (forall t, 0 < t < 1 -> flight V E p r0 t = sqrt ((1 + cos (PI / 2 * t)) / (1 + p / r0 * (p / r0) * cos (PI / 2 * t)))).
Proof.
  intros HE Hp Hr HK HV Ht. unfold turning_point in Ht. rewrite HV in Ht by exact Hr.
  set (b := p / r0) in *. assert (Hb : 0 < b) by (apply Rdiv_lt_0_compat; assumption).
  assert (KE : K / r0 / E = 1 - b * b) by lra. assert (0 < K / r0 / E) by (apply Rdiv_lt_0_compat; [apply Rdiv_lt_0_compat|]; assumption).
  assert (Hb1 : b < 1) by (destruct (Rlt_le_dec b 1) as [L|L]; [exact L|exfalso; pose proof (Rmult_le_compat 1 b 1 b ltac:(lra) ltac:(lra) L L); lra]).
  assert (HRad : forall u, 0 < u -> radial V E p r0 u = (1 - u) * (1 + b * b * u)).
  { intros u Hu. unfold radial. rewrite HV by (apply Rdiv_lt_0_compat; assumption).
    replace (K / (r0 / u) / E) with (u * (K / r0 / E)) by (field; lra). rewrite KE. replace (p * u / r0) with (b * u) by (unfold b; field; lra). ring. }
  split; [lra|]. split; [rewrite <- KE; unfold b; field; lra|]. split; [exact HRad|].
  intros t Ht'. destruct (cl_trig t Ht') as ((C0 & C1) & S0). unfold flight. rewrite HRad by exact C0.
  pose proof (sin2_cos2 (PI / 2 * t)) as SC. unfold Rsqr in SC. set (s := sin (PI / 2 * t)) in *. set (u := cos (PI / 2 * t)) in *.
  assert (BB : 0 < b * b * u) by (apply Rmult_lt_0_compat; [apply Rmult_lt_0_compat|]; assumption).
  assert (Q : (1 + u) / (1 + b * b * u) = s * s / ((1 - u) * (1 + b * b * u))).
  { replace (s * s) with ((1 - u) * (1 + u)) by lra. field. lra. }
  rewrite Q. rewrite sqrt_div; [rewrite sqrt_square by lra; reflexivity|apply Rmult_le_pos; lra|apply Rmult_lt_0_compat; lra].
Qed.
(** The classical angle of two charges is Rutherford's, and the code's angles converge to it. *)
Theorem C119_coulomb_scattering_is_rutherford :
  forall (Za Zb Ma Mb E0 p Z1 Z2 : R) (V : R -> R),
    0 < Ma -> 0 < Mb -> 0 < E0 -> 0 < p -> 0 < Z1 -> 0 < Z2 ->
    let ip := COULOMB Z1 Z2 in
    let a := screening_length Za Zb ip in
    let E := E0 * Mb / (Ma + Mb) in
    let r0 := coulomb_doca Z1 Z2 E p in
    let K := Z1 * Z2 * (cQ * cQ) / (4 * PI * cEPS0) in
    is_potential a Za Zb ip V ->
    exists theta, classical_angle V E p r0 theta /\ rutherford K E p theta /\
      forall e, 0 < e -> exists n0, forall n, (n0 <= n)%nat ->
        exists theta_n, scattering_angle Za Zb Ma Mb E0 p (r0 / a) ip (GAUSS_MEHLER n) = Ok theta_n /\ Rabs (theta_n - theta) < e.
Proof.
  intros Za Zb Ma Mb E0 p Z1 Z2 V Hma Hmb HE0 Hp H1 H2 ip a E r0 K HV.
  assert (HE : 0 < E) by (unfold E; apply Rdiv_lt_0_compat; [apply Rmult_lt_0_compat; assumption|lra]).
  pose proof cQ_pos as HQ. pose proof cEPS0_pos as H0. pose proof PI_RGT_0 as HP.
  assert (HK : 0 < K).
  { unfold K. apply Rdiv_lt_0_compat; [apply Rmult_lt_0_compat; [apply Rmult_lt_0_compat; assumption|apply Rmult_lt_0_compat; assumption]|].
    apply Rmult_lt_0_compat; [apply Rmult_lt_0_compat; lra|assumption]. }
  destruct (C44_coulomb_turning_point Z1 Z2 a Za Zb E p V H1 H2 HE HV) as (Hr & Ht & _). fold r0 in Hr, Ht.
  assert (VK : forall r, 0 < r -> V r = K / r).
  { intros r Hr'. specialize (HV r). unfold ip in HV. cbn [interaction_potential] in HV. apply (f_equal (fun y => match y with Ok v => v | _ => 0 end)) in HV.
    cbv beta iota in HV. rewrite <- HV. unfold coulomb, K. toR. field. repeat split; lra. }
  destruct (ru_flight E p r0 K V HE Hp Hr HK VK Ht) as (Hb & KK & HRad & HF). set (b := p / r0) in *.
  pose proof (ru_bb b Hb) as HB.
  assert (Ra : forall u, 0 < u < 1 -> 0 < radial V E p r0 u).
  { intros u Hu. rewrite HRad by lra. apply Rmult_lt_0_compat; [lra|]. assert (0 < b * b * u) by (apply Rmult_lt_0_compat; lra). lra. }
  assert (HC : forall r, r0 < r -> continuous V r).
  { intros r Hr'. apply (continuous_ext_loc _ (fun r => K / r)).
    - exists (mkposreal r ltac:(lra)). intros y Hy. unfold ball in Hy; cbn in Hy. unfold AbsRing_ball, abs, minus, plus, opp in Hy; cbn in Hy. apply Rabs_def2 in Hy.
      symmetry. apply VK. lra.
    - apply (continuous_mult (fun _ => K) Rinv); [apply continuous_const|apply continuous_Rinv; lra]. }
  set (g := fun t => sqrt ((1 + cos (PI / 2 * t)) / (1 + b * b * cos (PI / 2 * t)))) in *.
  assert (L0 : filterlim (flight V E p r0) (at_right 0) (locally (g 0))).
  { apply (filterlim_ext_loc g).
    - exists (mkposreal 1 Rlt_0_1). intros t Ht1 Ht0. unfold ball in Ht1; cbn in Ht1. unfold AbsRing_ball, abs, minus, plus, opp in Ht1; cbn in Ht1. apply Rabs_def2 in Ht1.
      symmetry. apply HF. lra.
    - eapply filterlim_filter_le_1; [apply filter_le_within|]. apply (ru_cont b Hb 0). lra. }
  assert (L1 : filterlim (flight V E p r0) (at_left 1) (locally (g 1))).
  { apply (filterlim_ext_loc g).
    - exists (mkposreal 1 Rlt_0_1). intros t Ht1 Ht0. unfold ball in Ht1; cbn in Ht1. unfold AbsRing_ball, abs, minus, plus, opp in Ht1; cbn in Ht1. apply Rabs_def2 in Ht1.
      symmetry. apply HF. lra.
    - eapply filterlim_filter_le_1; [apply filter_le_within|]. apply (ru_cont b Hb 1). lra. }
  destruct (cl_extend V E p r0 (g 0) (g 1) Hr HC Ra L0 L1) as (h & Hc & He & _).
  pose proof (cl_exists V E p r0 Hp Hr HC Ra h Hc He) as Ex.
  assert (I : PI * p / r0 * RInt h 0 1 = 4 * atan b).
  { rewrite <- (ru_integral b Hb). fold g. replace (PI * p / r0) with (PI * b) by (unfold b; field; lra). f_equal. apply RInt_ext.
    rewrite Rmin_left, Rmax_right by lra. intros t Htt. rewrite He by exact Htt. apply HF. exact Htt. }
  rewrite I in Ex. destruct (cl_converges V E p r0 (g 0) (g 1) Hp Hr HC Ra L0 L1) as (theta & Cl & Cv).
  assert (Th : theta = PI - 4 * atan b).
  { apply (C118_classical_angle_is_unique V E p r0); [exact Cl|]. unfold classical_angle. replace (PI - (PI - 4 * atan b)) with (4 * atan b) by ring. exact Ex. }
  exists theta. split; [exact Cl|]. split.
  - unfold rutherford. rewrite Th, KK. exact (ru_tan b Hb).
  - intros e Hee. destruct (Cv e Hee) as (n0 & _ & N). exists n0. intros n Hn.
    exists (PI - Rsum (map (gm_term p E r0 V n) (seq 1 n))). split; [|apply N; exact Hn].
    assert (HA : a <> 0).
    { unfold a, ip. cbn [screening_length]. pose proof cA0_pos. toR. apply Rgt_not_eq. apply Rdiv_lt_0_compat.
      - apply Rmult_lt_0_compat; [|assumption]. rewrite nlit_neg. apply Rdiv_lt_0_compat; [|]; apply IZR_lt; reflexivity.
      - rewrite !npowf_pos by assumption. apply Rplus_lt_0_compat; unfold Rpower; apply exp_pos. }
    unfold scattering_angle, gauss_mehler. cbv zeta. fold a.
    rewrite (gauss_mehler_R p (E0 *! Mb /! (Ma +! Mb)) (r0 / a *! a) _ V n).
    + replace (r0 / a *! a) with r0 by (toR; field; exact HA). reflexivity.
    + intro r. apply HV.
Qed.
Print Assumptions C119_coulomb_scattering_is_rutherford.

(** the hypotheses are met: helium on gold, every impact parameter and energy *)
Example C118_C119_met : forall E0 p, 0 < E0 -> 0 < p ->
  (exists V x, 0 < x /\ is_potential (screening_length 2 79 (KR_C : InteractionPotential R)) 2 79 KR_C V /\
     turning_point V (E0 * 197 / (4 + 197)) p (x * screening_length 2 79 (KR_C : InteractionPotential R))) /\
  exists V, is_potential (screening_length 2 79 (COULOMB 2 79 : InteractionPotential R)) 2 79 (COULOMB 2 79) V.
Proof.
  intros E0 p HE Hp. split; [|eexists; intro r; reflexivity].
  pose proof (sc_a 2 79 (KR_C : InteractionPotential R) I ltac:(lra) ltac:(lra)) as HA. set (a := screening_length 2 79 _) in *.
  assert (HE1 : 0 < E0 * 197 / (4 + 197)) by lra.
  destruct (unique_turning_point_screened 2 79 _ p (KR_C : InteractionPotential R) I ltac:(lra) ltac:(lra) HE1 ltac:(lra)) as (r & (Hr & Ht & _) & _). fold a in Ht.
  eexists. exists (r / a). split; [apply Rdiv_lt_0_compat; assumption|]. split; [intro r'; apply screened_potential_R; exact I|].
  replace (r / a * a) with r by (field; lra). exact Ht.
Qed.
