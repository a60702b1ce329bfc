(** * PropertiesFaster.v - C125: faster projectiles deflect less and lose a smaller share of their energy *)
From Coquelicot Require Import Coquelicot.
From Coq Require Import ZArith List Bool Lia Reals Lra.
From Verif Require Import Num ModelTypes ModelConsts ModelParticle ModelInteractions ModelBca ProofsBase NumR SpecR SpecCollision SpecAngle SpecClassical
  ProofsInteractions ProofsNewton ProofsCollision PropertiesCollision ProofsAngle PropertiesAngle ProofsQuad ProofsKinematics ProofsMonotone
  PropertiesMonotone PropertiesClassical ProofsFaster.
Import ListNotations.
Open Scope nat_scope.
Open Scope R_scope.

Lemma rel_energy Ma Mb E1 E2 : 0 < Ma -> 0 < Mb -> 0 < E1 -> E1 < E2 -> 0 < E1 * Mb / (Ma + Mb) < E2 * Mb / (Ma + Mb).
Proof.
  intros Hma Hmb H1 H2. split; [apply Rdiv_lt_0_compat; [apply Rmult_lt_0_compat; assumption|lra]|].
  unfold Rdiv. apply Rmult_lt_compat_r; [apply Rinv_0_lt_compat; lra|]. apply Rmult_lt_compat_r; assumption.
Qed.
(** ** C125 *)
(** Screened potentials: of two collisions of the same pair at the same impact parameter,
    each evaluated at its turning point, the faster one comes closer and has the smaller angle. *)
Theorem C125_faster_projectiles_deflect_less :
  forall Za Zb Ma Mb E1 E2 p x1 x2 (ip : InteractionPotential R) si V,
    screened ip -> quadrature si -> 0 < Za -> 0 < Zb -> 0 < Ma -> 0 < Mb -> 0 < E1 < E2 -> 0 < p -> 0 < x1 -> 0 < x2 ->
    let a := screening_length Za Zb ip in
    is_potential a Za Zb ip V ->
    turning_point V (E1 * Mb / (Ma + Mb)) p (x1 * a) -> turning_point V (E2 * Mb / (Ma + Mb)) p (x2 * a) ->
    x2 < x1 /\
    exists t1 t2, scattering_angle Za Zb Ma Mb E1 p x1 ip si = Ok t1 /\ scattering_angle Za Zb Ma Mb E2 p x2 ip si = Ok t2 /\
      t2 < t1 /\ t1 <= PI /\ (si <> GAUSS_LEGENDRE -> 0 < t2).
Proof.
  intros Za Zb Ma Mb E1 E2 p x1 x2 ip si V Hs Hq Ha Hb Hma Hmb (HE1 & HE) Hp X1 X2 a HV T1 T2.
  destruct (rel_energy Ma Mb E1 E2 Hma Hmb HE1 HE) as (HR1 & HR2).
  pose proof (screening_length_pos Za Zb ip Hs Ha Hb) as HA. fold a in HA.
  pose proof (screened_repulsive Za Zb ip V Hs Ha Hb HV) as HR. pose proof (screened_steepening Za Zb ip V Hs Ha Hb HV) as HSt.
  assert (R1 : 0 < x1 * a) by (apply Rmult_lt_0_compat; assumption). assert (R2 : 0 < x2 * a) by (apply Rmult_lt_0_compat; assumption).
  split. { apply (Rmult_lt_reg_r a); [exact HA|]. apply (fa_order V HR p _ _ _ _ Hp HR1 HR2 R1 R2 T1 T2). }
  assert (POS : si <> GAUSS_LEGENDRE -> exists t2, scattering_angle Za Zb Ma Mb E2 p x2 ip si = Ok t2 /\ 0 < t2).
  { intro NG. destruct (unique_turning_point_screened Za Zb (E2 * Mb / (Ma + Mb)) (p + 1) ip Hs Ha Hb ltac:(lra) ltac:(lra)) as (r3 & (R3 & T3 & _) & _). fold a in T3.
    assert (T3' : turning_point V (E2 * Mb / (Ma + Mb)) (p + 1) (r3 / a * a)).
    { replace (r3 / a * a) with r3 by (field; lra). apply (turning_ext V _ _ (p + 1) r3 (potential_unique a Za Zb ip V Hs HV)). exact T3. }
    destruct (C122_closer_collisions_deflect_more Za Zb Ma Mb E2 p (p + 1) x2 (r3 / a) ip si V Hs Hq Ha Hb Hma Hmb ltac:(lra) ltac:(lra) X2
      ltac:(apply Rdiv_lt_0_compat; assumption) HV T2 T3') as (_ & t2 & t3 & A2 & _ & L & _ & N). specialize (N NG). exists t2. split; [exact A2|lra]. }
  destruct si as [| |n|]; cbn [quadrature] in Hq; [|destruct Hq| |].
  - destruct (mw_faster Za Zb Ma Mb ip V Hs Ha Hb Hma Hmb HV E1 E2 p x1 x2 HE1 HE Hp X1 X2 T1 T2) as (t1 & t2 & A & B & C & D & F).
    exists t1, t2. repeat split; try assumption. intro NG. destruct (POS NG) as (t & Et & Pt). rewrite B in Et. injection Et as <-. exact Pt.
  - pose proof (fa_gm V HR HSt p _ _ _ _ Hp HR1 HR2 R1 R2 T1 T2 n Hq) as L. pose proof (gm_sum_nonneg V (E1 * Mb / (Ma + Mb)) p (x1 * a) n (Rlt_le _ _ Hp) R1) as N.
    assert (B : scattering_angle Za Zb Ma Mb E2 p x2 ip (GAUSS_MEHLER n) = Ok (PI - Rsum (map (gm_term p (E2 * Mb / (Ma + Mb)) (x2 * a) V n) (seq 1 n))))
      by (unfold scattering_angle; apply gm_angle_value; exact HV).
    exists (PI - Rsum (map (gm_term p (E1 * Mb / (Ma + Mb)) (x1 * a) V n) (seq 1 n))), (PI - Rsum (map (gm_term p (E2 * Mb / (Ma + Mb)) (x2 * a) V n) (seq 1 n))).
    split; [unfold scattering_angle; apply gm_angle_value; exact HV|]. split; [exact B|]. split; [lra|]. split; [lra|].
    intro NG. destruct (POS NG) as (t & Et & Pt). rewrite B in Et. injection Et as <-. exact Pt.
  - pose proof (fa_gl V HR HSt p _ _ _ _ Hp HR1 HR2 R1 R2 T1 T2) as L. pose proof (gl_sum_nonneg V (E1 * Mb / (Ma + Mb)) p (x1 * a) (Rlt_le _ _ Hp) R1) as N.
    unfold scattering_angle. rewrite !(gl_angle_value _ _ _ _ _ _ _ _ V HV). fold a. eexists _, _. split; [reflexivity|]. split; [reflexivity|].
    split; [lra|]. split; [lra|congruence].
Qed.
Print Assumptions C125_faster_projectiles_deflect_less.

(** The same for two bare charges (Gauss-Mehler and Gauss-Legendre). *)
Theorem C125_coulomb :
  forall Za Zb Ma Mb E1 E2 p x1 x2 Z1 Z2 si V, 0 < Z1 -> 0 < Z2 ->
    quadrature si -> si <> MENDENHALL_WELLER -> 0 < Ma -> 0 < Mb -> 0 < E1 < E2 -> 0 < p ->
    let ip := COULOMB Z1 Z2 in
    let a := screening_length Za Zb ip in
    0 < x1 * a -> 0 < x2 * a ->
    is_potential a Za Zb ip V ->
    turning_point V (E1 * Mb / (Ma + Mb)) p (x1 * a) -> turning_point V (E2 * Mb / (Ma + Mb)) p (x2 * a) ->
    exists t1 t2, scattering_angle Za Zb Ma Mb E1 p x1 ip si = Ok t1 /\ scattering_angle Za Zb Ma Mb E2 p x2 ip si = Ok t2 /\ t2 < t1 <= PI.
Proof.
  intros Za Zb Ma Mb E1 E2 p x1 x2 Z1 Z2 si V H1 H2 Hq Hn Hma Hmb (HE1 & HE) Hp ip a R1 R2 HV T1 T2.
  destruct (rel_energy Ma Mb E1 E2 Hma Hmb HE1 HE) as (HR1 & HR2).
  pose proof cQ_pos as HQ. pose proof cEPS0_pos as H0. pose proof PI_RGT_0 as HP.
  set (K := Z1 * Z2 * (cQ * cQ) / (4 * PI * cEPS0)).
  assert (HK : 0 < K) by (unfold K; apply Rdiv_lt_0_compat; [apply Rmult_lt_0_compat; apply Rmult_lt_0_compat; assumption|apply Rmult_lt_0_compat; [lra|assumption]]).
  assert (VK : forall r, 0 < r -> V r = K / r).
  { intros r Hr. specialize (HV r). unfold ip in HV. cbn [interaction_potential] in HV. apply (f_equal (fun y => match y with Ok v => v | _ => 0 end)) in HV.
    cbv beta iota in HV. rewrite <- HV. unfold coulomb, K. toR. field. repeat split; lra. }
  pose proof (coulomb_repulsive K V HK VK) as HR. pose proof (coulomb_steepening K V HK VK) as HSt.
  destruct si as [| |n|]; cbn [quadrature] in Hq; [congruence|destruct Hq| |].
  - unfold scattering_angle. rewrite !(gm_angle_value _ _ _ _ _ _ _ _ _ V HV). fold a. eexists _, _. split; [reflexivity|]. split; [reflexivity|].
    pose proof (fa_gm V HR HSt p _ _ _ _ Hp HR1 HR2 R1 R2 T1 T2 n Hq). pose proof (gm_sum_nonneg V (E1 * Mb / (Ma + Mb)) p (x1 * a) n (Rlt_le _ _ Hp) R1). lra.
  - unfold scattering_angle. rewrite !(gl_angle_value _ _ _ _ _ _ _ _ V HV). fold a. eexists _, _. split; [reflexivity|]. split; [reflexivity|].
    pose proof (fa_gl V HR HSt p _ _ _ _ Hp HR1 HR2 R1 R2 T1 T2). pose proof (gl_sum_nonneg V (E1 * Mb / (Ma + Mb)) p (x1 * a) (Rlt_le _ _ Hp) R1). lra.
Qed.
Print Assumptions C125_coulomb.

(** Two computed collisions of the same pair at the same impact parameter: the faster
    projectile gives the smaller share of its energy and sends the recoil more sideways. *)
Theorem C125_faster_projectiles_lose_a_smaller_share :
  forall build (ion1 ion2 target : Particle R) (g1 g2 : BinaryCollisionGeometry R) options r1 r2 ip si V,
    p_Z ion1 = p_Z ion2 -> p_m ion1 = p_m ion2 -> p_interaction_index ion1 = p_interaction_index ion2 ->
    bcg_impact_parameter g1 = bcg_impact_parameter g2 ->
    idx2 (o_interaction_potential options) (p_interaction_index ion1) (p_interaction_index target) = Ok ip ->
    idx2 (o_scattering_integral options) (p_interaction_index ion1) (p_interaction_index target) = Ok si ->
    screened ip -> si = MENDENHALL_WELLER \/ (exists n, si = GAUSS_MEHLER n /\ (0 < n)%nat) ->
    0 < p_Z ion1 -> 0 < p_Z target -> 0 < p_m ion1 -> 0 < p_m target -> 0 < p_E ion1 < p_E ion2 ->
    0 < bcg_impact_parameter g1 ->
    calculate_binary_collision build ion1 target g1 options = Ok (Some r1) ->
    calculate_binary_collision build ion2 target g2 options = Ok (Some r2) ->
    let a := screening_length (p_Z ion1) (p_Z target) ip in
    let E1 := p_E ion1 * p_m target / (p_m ion1 + p_m target) in
    let E2 := p_E ion2 * p_m target / (p_m ion2 + p_m target) in
    let x1 := bcr_normalized_distance_of_closest_approach r1 in
    let x2 := bcr_normalized_distance_of_closest_approach r2 in
    is_potential a (p_Z ion1) (p_Z target) ip V -> 0 < x1 -> 0 < x2 ->
    turning_point V E1 (bcg_impact_parameter g1) (x1 * a) -> turning_point V E2 (bcg_impact_parameter g2) (x2 * a) ->
    0 < bcr_recoil_energy r2 / p_E ion2 < bcr_recoil_energy r1 / p_E ion1 /\ bcr_psi_recoil r1 < bcr_psi_recoil r2 < PI / 2 /\ x2 < x1.
Proof.
  intros build ion1 ion2 target g1 g2 options r1 r2 ip si V EZ Em Ei Eg Hi Hq Hs Hsi Ha Hb Hma Hmb (HE1 & HE) Hp C1 C2 a E1 E2 x1 x2 HV X1 X2 T1 T2.
  assert (Q : quadrature si) by (destruct Hsi as [-> |(n & -> & Hn)]; cbn; auto).
  assert (NG : si <> GAUSS_LEGENDRE) by (destruct Hsi as [-> |(n & -> & Hn)]; discriminate).
  pose proof (cbc_angle _ _ _ _ _ _ _ _ Hi Hq C1) as B1. rewrite Ei in Hi, Hq. pose proof (cbc_angle _ _ _ _ _ _ _ _ Hi Hq C2) as B2.
  rewrite <- Eg in B2, T2. rewrite <- EZ, <- Em in B2. unfold E2 in T2. rewrite <- Em in T2.
  destruct (C125_faster_projectiles_deflect_less (p_Z ion1) (p_Z target) (p_m ion1) (p_m target) (p_E ion1) (p_E ion2) (bcg_impact_parameter g1) x1 x2 ip si V
    Hs Q Ha Hb Hma Hmb (conj HE1 HE) Hp X1 X2 HV T1 T2) as (LX & t1 & t2 & A1 & A2 & L & U & N). specialize (N NG).
  change (bcr_normalized_distance_of_closest_approach r1) with x1 in B1. change (bcr_normalized_distance_of_closest_approach r2) with x2 in B2.
  rewrite A1 in B1. rewrite A2 in B2. injection B1 as F1. injection B2 as F2. subst t1 t2.
  assert (Hma2 : 0 < p_m ion2) by (rewrite <- Em; exact Hma). assert (HE2 : 0 < p_E ion2) by lra.
  destruct (cbc_angles _ _ _ _ _ _ Hma Hmb (Rlt_le _ _ HE1) C1 ltac:(lra)) as (S1 & _).
  destruct (cbc_angles _ _ _ _ _ _ Hma2 Hmb (Rlt_le _ _ HE2) C2 ltac:(lra)) as (S2 & _).
  destruct (cbc_kinematics _ _ _ _ _ _ C1) as (a1 & y1 & c1 & K1). destruct (cbc_kinematics _ _ _ _ _ _ C2) as (a2 & y2 & c2 & K2).
  set (g := 4 * (p_m ion1 * p_m target) / ((p_m ion1 + p_m target) * (p_m ion1 + p_m target))).
  assert (W1 : bcr_recoil_energy r1 = g * p_E ion1 * (sin (bcr_theta r1 / 2) * sin (bcr_theta r1 / 2))) by (rewrite K1 at 1; apply kin_T).
  assert (W2 : bcr_recoil_energy r2 = g * p_E ion2 * (sin (bcr_theta r2 / 2) * sin (bcr_theta r2 / 2))) by (rewrite K2 at 1; unfold g; rewrite Em; apply kin_T).
  assert (G : 0 < g). { unfold g. apply Rdiv_lt_0_compat; [|apply Rmult_lt_0_compat; lra]. pose proof (Rmult_lt_0_compat _ _ Hma Hmb). lra. }
  pose proof (half_sin2_mono (bcr_theta r2) 0 ltac:(lra) N ltac:(lra)) as M0. pose proof (half_sin2_mono (bcr_theta r1) (bcr_theta r2) ltac:(lra) L U) as M.
  replace (0 / 2) with 0 in M0 by lra. rewrite sin_0, Rmult_0_l in M0.
  rewrite W1, W2. replace (g * p_E ion2 * (sin (bcr_theta r2 / 2) * sin (bcr_theta r2 / 2)) / p_E ion2) with (g * (sin (bcr_theta r2 / 2) * sin (bcr_theta r2 / 2))) by (field; lra).
  replace (g * p_E ion1 * (sin (bcr_theta r1 / 2) * sin (bcr_theta r1 / 2)) / p_E ion1) with (g * (sin (bcr_theta r1 / 2) * sin (bcr_theta r1 / 2))) by (field; lra).
  split; [split; [apply Rmult_lt_0_compat; assumption|apply Rmult_lt_compat_l; assumption]|]. split; [lra|exact LX].
Qed.
Print Assumptions C125_faster_projectiles_lose_a_smaller_share.

(** The classical angle itself, to which Gauss-Mehler converges: closer or slower is never less. *)
Theorem C125_classical_angle :
  forall Za Zb Ma Mb E1 E2 p1 p2 x1 x2 (ip : InteractionPotential R) V theta1 theta2,
    screened ip -> 0 < Za -> 0 < Zb -> 0 < Ma -> 0 < Mb -> 0 < E1 -> E1 <= E2 -> 0 < p1 -> p1 <= p2 -> 0 < x1 -> 0 < x2 ->
    let a := screening_length Za Zb ip in
    is_potential a Za Zb ip V ->
    turning_point V (E1 * Mb / (Ma + Mb)) p1 (x1 * a) -> turning_point V (E2 * Mb / (Ma + Mb)) p2 (x2 * a) ->
    classical_angle V (E1 * Mb / (Ma + Mb)) p1 (x1 * a) theta1 -> classical_angle V (E2 * Mb / (Ma + Mb)) p2 (x2 * a) theta2 ->
    0 <= theta2 <= theta1 /\ theta1 <= PI.
Proof.
  intros Za Zb Ma Mb E1 E2 p1 p2 x1 x2 ip V th1 th2 Hs Ha Hb Hma Hmb HE1 HE Hp1 Hp X1 X2 a HV T1 T2 C1 C2.
  pose proof (screening_length_pos Za Zb ip Hs Ha Hb) as HA. fold a in HA.
  (* the collision at the lower energy and the larger impact parameter *)
  assert (Em : 0 < E1 * Mb / (Ma + Mb)) by (apply Rdiv_lt_0_compat; [apply Rmult_lt_0_compat; assumption|lra]).
  destruct (unique_turning_point_screened Za Zb (E1 * Mb / (Ma + Mb)) p2 ip Hs Ha Hb Em ltac:(lra)) as (r3 & (R3 & T3 & _) & _). fold a in T3.
  assert (X3 : 0 < r3 / a) by (apply Rdiv_lt_0_compat; assumption).
  assert (T3' : turning_point V (E1 * Mb / (Ma + Mb)) p2 (r3 / a * a)).
  { replace (r3 / a * a) with r3 by (field; lra). apply (turning_ext V _ _ p2 r3 (potential_unique a Za Zb ip V Hs HV)). exact T3. }
  set (x3 := r3 / a) in *.
  destruct (C118_gauss_mehler_converges Za Zb Ma Mb E1 p1 x1 ip V Hs Ha Hb Hma Hmb HE1 Hp1 X1 HV T1) as (u1 & D1 & B1 & G1).
  destruct (C118_gauss_mehler_converges Za Zb Ma Mb E2 p2 x2 ip V Hs Ha Hb Hma Hmb ltac:(lra) ltac:(lra) X2 HV T2) as (u2 & D2 & B2 & G2).
  pose proof (C118_classical_angle_is_unique _ _ _ _ _ _ C1 D1) as ->. pose proof (C118_classical_angle_is_unique _ _ _ _ _ _ C2 D2) as ->.
  split; [|apply B1]. split; [apply B2|]. apply le_epsilon. intros e He.
  destruct (G1 (e / 2) ltac:(lra)) as (n1 & N1). destruct (G2 (e / 2) ltac:(lra)) as (n2 & N2).
  set (n := S (max n1 n2)). destruct (N1 n ltac:(unfold n; lia)) as (t1 & A1 & L1). destruct (N2 n ltac:(unfold n; lia)) as (t2 & A2 & L2).
  assert (Q : quadrature (GAUSS_MEHLER n)) by (cbn; unfold n; lia).
  assert (O : t2 <= t1).
  { assert (exists t3, scattering_angle Za Zb Ma Mb E1 p2 x3 ip (GAUSS_MEHLER n) = Ok t3 /\ t3 <= t1) as (t3 & A3 & L3).
    { destruct Hp as [Hp| <-].
      - destruct (C122_closer_collisions_deflect_more Za Zb Ma Mb E1 p1 p2 x1 x3 ip (GAUSS_MEHLER n) V Hs Q Ha Hb Hma Hmb HE1 ltac:(lra) X1 X3 HV T1 T3') as (_ & s1 & s2 & U1 & U2 & U3 & _).
        rewrite A1 in U1. injection U1 as <-. exists s2. split; [exact U2|lra].
      - assert (x3 = x1); [|subst x3; rewrite H; exists t1; split; [exact A1|lra]].
        destruct (unique_turning_point_screened Za Zb (E1 * Mb / (Ma + Mb)) p1 ip Hs Ha Hb Em ltac:(lra)) as (r0 & (_ & _ & Un) & _). fold a in Un.
        assert (TA : forall x, 0 < x -> turning_point V (E1 * Mb / (Ma + Mb)) p1 (x * a) -> x * a = r0).
        { intros x Hx Ht. apply Un; [apply Rmult_lt_0_compat; assumption|]. apply (turning_ext _ V _ p1 (x * a) (fun r => eq_sym (potential_unique a Za Zb ip V Hs HV r))). exact Ht. }
        pose proof (TA x1 X1 T1) as Q1. pose proof (TA x3 X3 T3') as Q3. apply (Rmult_eq_reg_r a); [rewrite Q1; exact Q3|lra]. }
    assert (t2 <= t3); [|lra]. destruct HE as [HE| <-].
    - destruct (C125_faster_projectiles_deflect_less Za Zb Ma Mb E1 E2 p2 x3 x2 ip (GAUSS_MEHLER n) V Hs Q Ha Hb Hma Hmb (conj HE1 HE) ltac:(lra) X3 X2 HV T3' T2) as (_ & s1 & s2 & U1 & U2 & U3 & _).
      rewrite A3 in U1. injection U1 as <-. rewrite A2 in U2. injection U2 as <-. lra.
    - assert (x3 = x2); [|rewrite H, A2 in A3; injection A3 as <-; lra].
      destruct (unique_turning_point_screened Za Zb (E1 * Mb / (Ma + Mb)) p2 ip Hs Ha Hb Em ltac:(lra)) as (r0 & (_ & _ & Un) & _). fold a in Un.
      assert (TA : forall x, 0 < x -> turning_point V (E1 * Mb / (Ma + Mb)) p2 (x * a) -> x * a = r0).
      { intros x Hx Ht. apply Un; [apply Rmult_lt_0_compat; assumption|]. apply (turning_ext _ V _ p2 (x * a) (fun r => eq_sym (potential_unique a Za Zb ip V Hs HV r))). exact Ht. }
      pose proof (TA x2 X2 T2) as Q1. pose proof (TA x3 X3 T3') as Q3. apply (Rmult_eq_reg_r a); [rewrite Q1; exact Q3|lra]. }
  apply Rabs_def2 in L1. apply Rabs_def2 in L2. lra.
Qed.
Print Assumptions C125_classical_angle.
(** every pair of atoms, impact parameter and pair of energies meets the hypotheses *)
Example C125_met : forall Za Zb Ma Mb E1 E2 p (ip : InteractionPotential R), screened ip -> 0 < Za -> 0 < Zb -> 0 < Ma -> 0 < Mb -> 0 < E1 < E2 -> 0 < p ->
  exists V x1 x2, let a := screening_length Za Zb ip in is_potential a Za Zb ip V /\ 0 < x1 /\ 0 < x2 /\
    turning_point V (E1 * Mb / (Ma + Mb)) p (x1 * a) /\ turning_point V (E2 * Mb / (Ma + Mb)) p (x2 * a).
Proof.
  intros Za Zb Ma Mb E1 E2 p ip Hs Ha Hb Hma Hmb (HE1 & HE) Hp. destruct (rel_energy Ma Mb E1 E2 Hma Hmb HE1 HE) as (HR1 & HR2).
  set (a := screening_length Za Zb ip). pose proof (screening_length_pos Za Zb ip Hs Ha Hb) as HA. fold a in HA.
  destruct (unique_turning_point_screened Za Zb (E1 * Mb / (Ma + Mb)) p ip Hs Ha Hb HR1 ltac:(lra)) as (r1 & (R1 & T1 & _) & _). fold a in T1.
  destruct (unique_turning_point_screened Za Zb (E2 * Mb / (Ma + Mb)) p ip Hs Ha Hb ltac:(lra) ltac:(lra)) as (r2 & (R2 & T2 & _) & _). fold a in T2.
  eexists _, (r1 / a), (r2 / a). cbv zeta. fold a. split; [intro r; apply (screened_potential_R r a Za Zb ip Hs)|].
  split; [apply Rdiv_lt_0_compat; assumption|]. split; [apply Rdiv_lt_0_compat; assumption|].
  replace (r1 / a * a) with r1 by (field; lra). replace (r2 / a * a) with r2 by (field; lra). split; assumption.
Qed.
