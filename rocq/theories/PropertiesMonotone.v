(** * PropertiesMonotone.v - C122: closer collisions deflect more and transfer more energy *)
From Coquelicot Require Import Coquelicot.
From Coq Require Import ZArith List Bool Lia Reals Lra.
From Verif Require Import Num ModelTypes ModelConsts ModelParticle ModelInteractions ModelBca ProofsBase NumR SpecR SpecCollision SpecAngle
  ProofsInteractions ProofsNewton ProofsCollision PropertiesCollision ProofsAngle PropertiesAngle ProofsQuad ProofsKinematics ProofsMonotone.
Import ListNotations.
Open Scope nat_scope.
Open Scope R_scope.

(** the three quadratures of the scattering integral (MAGIC is a fit formula) *)
Definition quadrature (si : ScatteringIntegral) : Prop :=
  match si with MENDENHALL_WELLER | GAUSS_LEGENDRE => True | GAUSS_MEHLER n => (0 < n)%nat | MAGIC => False end.

Lemma gm_sum_nonneg V E p r n : 0 <= p -> 0 < r -> 0 <= Rsum (map (gm_term p E r V n) (seq 1 n)).
Proof.
  intros Hp Hr.
  assert (G : forall l, (forall i, In i l -> (1 <= i <= n)%nat) -> 0 <= Rsum (map (gm_term p E r V n) l)).
  { induction l as [|i l IH]; intros Hl; [apply Rle_refl|]. specialize (IH (fun j Hj => Hl j (or_intror Hj))).
    pose proof (Hl i (or_introl eq_refl)) as Hi. destruct (gm_sc n i Hi) as (Hsn & _).
    cbn [map]. unfold Rsum in *. cbn [fold_right]. apply Rplus_le_le_0_compat; [|exact IH]. unfold gm_term.
    apply Rmult_le_pos; [apply Rlt_le, Rmult_lt_0_compat; [apply Rdiv_lt_0_compat; [apply PI_RGT_0|apply lt_0_INR; lia]|exact Hsn]|].
    assert (0 <= p / r) by (apply Rmult_le_pos; [exact Hp|apply Rlt_le, Rinv_0_lt_compat; exact Hr]).
    destruct (Req_dec (sqrt (1 - V (r / cos (gm_th n i)) / E - p * cos (gm_th n i) / r * (p * cos (gm_th n i) / r))) 0) as [Z|Z].
    - rewrite Z. unfold Rdiv at 1. rewrite Rinv_0. lra.
    - apply Rmult_le_pos; [exact H|]. apply Rlt_le, Rinv_0_lt_compat.
      pose proof (sqrt_pos (1 - V (r / cos (gm_th n i)) / E - p * cos (gm_th n i) / r * (p * cos (gm_th n i) / r))). lra. }
  apply G. intros i Hi. apply in_seq in Hi. lia.
Qed.
Lemma gl_sum_nonneg V E p r : 0 <= p -> 0 < r -> 0 <= rule (gl_value V E p r).
Proof.
  intros Hp Hr. assert (G : forall u, 0 < u -> 0 <= gl_value V E p r u).
  { intros u Hu. unfold gl_value. set (d := sqrt _). assert (Hd : 0 <= d) by apply sqrt_pos.
    assert (0 <= 4 * p * u) by (apply Rmult_le_pos; lra).
    destruct (Req_dec d 0) as [-> |N]; [unfold Rdiv; rewrite Rmult_0_r, Rinv_0; lra|].
    apply Rmult_le_pos; [exact H|]. apply Rlt_le, Rinv_0_lt_compat, Rmult_lt_0_compat; lra. }
  unfold rule. pose proof (G (1 / 2) ltac:(lra)). pose proof (G (461531 / 2000000) ltac:(lra)). pose proof (G (1538469 / 2000000) ltac:(lra)).
  pose proof (G (9382 / 200000) ltac:(lra)). pose proof (G (190618 / 200000) ltac:(lra)). lra.
Qed.
Lemma angles_ordered Za Zb Ma Mb E0 p1 p2 x1 x2 (ip : InteractionPotential R) si V :
    screened ip -> quadrature si -> 0 < Za -> 0 < Zb -> 0 < Ma -> 0 < Mb -> 0 < E0 -> 0 <= p1 < p2 -> 0 < x1 -> 0 < x2 ->
    let a := screening_length Za Zb ip in
    let E := E0 * Mb / (Ma + Mb) in
    is_potential a Za Zb ip V -> turning_point V E p1 (x1 * a) -> turning_point V E p2 (x2 * a) ->
    exists t1 t2, scattering_angle Za Zb Ma Mb E0 p1 x1 ip si = Ok t1 /\ scattering_angle Za Zb Ma Mb E0 p2 x2 ip si = Ok t2 /\
      t2 < t1 /\ t1 <= PI /\ (si <> GAUSS_LEGENDRE -> 0 <= t2).
Proof.
  intros Hs Hq Ha Hb Hma Hmb HE0 (H0 & H1) X1 X2 a E HV T1 T2.
  assert (HE : 0 < E) by (unfold E; apply Rdiv_lt_0_compat; [apply Rmult_lt_0_compat; assumption|lra]).
  pose proof (screening_length_pos Za Zb ip Hs Ha Hb) as HA. fold a in HA.
  pose proof (screened_repulsive Za Zb ip V Hs Ha Hb HV) as HR.
  assert (R1 : 0 < x1 * a) by (apply Rmult_lt_0_compat; assumption). assert (R2 : 0 < x2 * a) by (apply Rmult_lt_0_compat; assumption).
  destruct si as [| |n|]; cbn [quadrature] in Hq; [|destruct Hq| |].
  - destruct (mw_mono Za Zb Ma Mb E0 ip V Hs Ha Hb Hma Hmb HE0 HV p1 p2 x1 x2 H0 H1 X1 X2 T1 T2) as (t1 & t2 & A & B & C & D & F).
    exists t1, t2. repeat split; auto.
  - unfold scattering_angle. rewrite !(gm_angle_value _ _ _ _ _ _ _ _ _ V HV). fold a E. eexists _, _. split; [reflexivity|]. split; [reflexivity|].
    pose proof (rep_gm V E HE HR p1 p2 _ _ n Hq H0 H1 R1 R2 T1 T2). pose proof (gm_sum_nonneg V E p1 (x1 * a) n H0 R1).
    split; [lra|]. split; [lra|]. intros _. apply (gm_angle_range V E p2 (x2 * a) n Hq HE ltac:(lra) R2 T2).
    intros r Hr. apply Rlt_le, HR; assumption.
  - unfold scattering_angle. rewrite !(gl_angle_value _ _ _ _ _ _ _ _ V HV). fold a E. eexists _, _. split; [reflexivity|]. split; [reflexivity|].
    pose proof (rep_gl V E HE HR p1 p2 _ _ H0 H1 R1 R2 T1 T2). pose proof (gl_sum_nonneg V E p1 (x1 * a) H0 R1).
    split; [lra|]. split; [lra|]. congruence.
Qed.
(** ** C122 *)
(** Screened potentials: of two collisions of the same pair at the same energy, each
    evaluated at its turning point, the closer one has the larger angle. *)
Theorem C122_closer_collisions_deflect_more :
  forall Za Zb Ma Mb E0 p1 p2 x1 x2 (ip : InteractionPotential R) si V,
    screened ip -> quadrature si -> 0 < Za -> 0 < Zb -> 0 < Ma -> 0 < Mb -> 0 < E0 -> 0 <= p1 < p2 -> 0 < x1 -> 0 < x2 ->
    let a := screening_length Za Zb ip in
    let E := E0 * Mb / (Ma + Mb) in
    is_potential a Za Zb ip V -> turning_point V E p1 (x1 * a) -> turning_point V E p2 (x2 * a) ->
    x1 < x2 /\
    exists t1 t2, scattering_angle Za Zb Ma Mb E0 p1 x1 ip si = Ok t1 /\ scattering_angle Za Zb Ma Mb E0 p2 x2 ip si = Ok t2 /\
      t2 < t1 /\ t1 <= PI /\ (si <> GAUSS_LEGENDRE -> 0 < t2).
Proof.
  intros Za Zb Ma Mb E0 p1 p2 x1 x2 ip si V Hs Hq Ha Hb Hma Hmb HE0 Hp X1 X2 a E HV T1 T2.
  assert (HE : 0 < E) by (unfold E; apply Rdiv_lt_0_compat; [apply Rmult_lt_0_compat; assumption|lra]).
  pose proof (screening_length_pos Za Zb ip Hs Ha Hb) as HA. fold a in HA. split.
  { apply (Rmult_lt_reg_r a); [exact HA|]. apply (turn_order V E HE (screened_repulsive Za Zb ip V Hs Ha Hb HV) p1 p2); try tauto;
      apply Rmult_lt_0_compat; assumption. }
  destruct (angles_ordered Za Zb Ma Mb E0 p1 p2 x1 x2 ip si V Hs Hq Ha Hb Hma Hmb HE0 Hp X1 X2 HV T1 T2) as (t1 & t2 & A1 & A2 & L & U & N).
  exists t1, t2. split; [exact A1|]. split; [exact A2|]. split; [exact L|]. split; [exact U|]. intro Hg.
  destruct (unique_turning_point_screened Za Zb E (p2 + 1) ip Hs Ha Hb HE ltac:(lra)) as (r3 & (R3 & T3 & _) & _). fold a in T3.
  assert (T3' : turning_point V E (p2 + 1) (r3 / a * a)).
  { replace (r3 / a * a) with r3 by (field; lra). apply (turning_ext V _ E (p2 + 1) r3 (potential_unique a Za Zb ip V Hs HV)). exact T3. }
  destruct (angles_ordered Za Zb Ma Mb E0 p2 (p2 + 1) x2 (r3 / a) ip si V Hs Hq Ha Hb Hma Hmb HE0 ltac:(lra) X2 ltac:(apply Rdiv_lt_0_compat; assumption) HV T2 T3')
    as (t2' & t3 & A2' & _ & L' & _ & N'). rewrite A2 in A2'. injection A2' as <-. specialize (N' Hg). lra.
Qed.
Print Assumptions C122_closer_collisions_deflect_more.

(** The same for two bare charges (Gauss-Mehler and Gauss-Legendre). *)
Theorem C122_coulomb :
  forall Za Zb Ma Mb E0 p1 p2 x1 x2 Z1 Z2 si V, 0 < Z1 -> 0 < Z2 ->
    quadrature si -> si <> MENDENHALL_WELLER -> 0 < Ma -> 0 < Mb -> 0 < E0 -> 0 <= p1 < p2 ->
    let ip := COULOMB Z1 Z2 in
    let a := screening_length Za Zb ip in
    let E := E0 * Mb / (Ma + Mb) in
    0 < x1 * a -> 0 < x2 * a ->
    is_potential a Za Zb ip V -> turning_point V E p1 (x1 * a) -> turning_point V E p2 (x2 * a) ->
    exists t1 t2, scattering_angle Za Zb Ma Mb E0 p1 x1 ip si = Ok t1 /\ scattering_angle Za Zb Ma Mb E0 p2 x2 ip si = Ok t2 /\ t2 < t1 <= PI.
Proof.
  intros Za Zb Ma Mb E0 p1 p2 x1 x2 Z1 Z2 si V H1 H2 Hq Hn Hma Hmb HE0 (P0 & P1) ip a E R1 R2 HV T1 T2.
  assert (HE : 0 < E) by (unfold E; apply Rdiv_lt_0_compat; [apply Rmult_lt_0_compat; assumption|lra]).
  pose proof cQ_pos as HQ. pose proof cEPS0_pos as H0. pose proof PI_RGT_0 as HP.
  assert (HR : repulsive V).
  { apply (coulomb_repulsive (Z1 * Z2 * (cQ * cQ) / (4 * PI * cEPS0))).
    - apply Rdiv_lt_0_compat; [apply Rmult_lt_0_compat; apply Rmult_lt_0_compat; assumption|apply Rmult_lt_0_compat; [lra|assumption]].
    - intros r Hr. specialize (HV r). unfold ip in HV. cbn [interaction_potential] in HV. apply (f_equal (fun y => match y with Ok v => v | _ => 0 end)) in HV.
      cbv beta iota in HV. rewrite <- HV. unfold coulomb. toR. field. repeat split; lra. }
  destruct si as [| |n|]; cbn [quadrature] in Hq; [congruence|destruct Hq| |].
  - unfold scattering_angle. rewrite !(gm_angle_value _ _ _ _ _ _ _ _ _ V HV). fold a E. eexists _, _. split; [reflexivity|]. split; [reflexivity|].
    pose proof (rep_gm V E HE HR p1 p2 _ _ n Hq P0 P1 R1 R2 T1 T2). pose proof (gm_sum_nonneg V E p1 (x1 * a) n P0 R1). lra.
  - unfold scattering_angle. rewrite !(gl_angle_value _ _ _ _ _ _ _ _ V HV). fold a E. eexists _, _. split; [reflexivity|]. split; [reflexivity|].
    pose proof (rep_gl V E HE HR p1 p2 _ _ P0 P1 R1 R2 T1 T2). pose proof (gl_sum_nonneg V E p1 (x1 * a) P0 R1). lra.
Qed.
Print Assumptions C122_coulomb.

(** Head-on: every rule turns the projectile around in the centre of mass. *)
Theorem C122_head_on :
  forall Za Zb Ma Mb E0 x (ip : InteractionPotential R) si V,
    0 < Za -> 0 < Zb -> 0 < x ->
    let a := screening_length Za Zb ip in
    is_potential a Za Zb ip V -> turning_point V (E0 * Mb / (Ma + Mb)) 0 (x * a) -> E0 * Mb / (Ma + Mb) <> 0 ->
    (si = MENDENHALL_WELLER -> screened ip) -> (si = MAGIC -> exists c, magic_table ip = Some c) ->
    scattering_angle Za Zb Ma Mb E0 0 x ip si = Ok PI.
Proof.
  intros Za Zb Ma Mb E0 x ip si V Ha Hb Hx a HV Ht HE Hmw Hmg. destruct si as [| |n|].
  - apply mw_head_on. auto.
  - unfold scattering_angle. destruct (Hmg eq_refl) as (c & Hc). destruct (magic_table_ok ip c Hc) as (Hs & Hk & Hpc).
    unfold magic. rewrite Hk. cbn [bind]. cbv zeta. rewrite (dphi_R x ip Hs), (phi_R x ip Hs). cbn [bind]. fold a.
    pose proof (screening_length_pos Za Zb ip Hs Ha Hb) as HA. fold a in HA.
    assert (EV : V (x * a) = E0 * Mb / (Ma + Mb)).
    { unfold turning_point in Ht. unfold Rdiv in Ht at 2 3. rewrite !Rmult_0_l in Ht.
      apply (Rmult_eq_reg_r (/ (E0 * Mb / (Ma + Mb)))); [|apply Rinv_neq_0_compat; exact HE]. rewrite Rinv_r by exact HE. unfold Rdiv in *. lra. }
    pose proof (potential_unique a Za Zb ip V Hs HV (x * a)) as VV. replace (x * a / a) with x in VV by (field; lra).
    assert (E1 : Za * Zb * cQ * cQ / 4 / PI / cEPS0 / a * a / (a * x) * expsum (screening_terms ip) x = E0 * Mb / (Ma + Mb)).
    { rewrite <- EV, VV. pose proof PI_RGT_0. pose proof cEPS0_pos. field. repeat split; lra. }
    toR. rewrite ?nZ_R. change (@npi R NumR) with PI. change (@nacos R NumR) with acos. rewrite E1.
    assert (P0 : forall y, y <> 0 -> npowf (0 / a) y = 0).
    { intros y Hy. replace (0 / a) with 0 by (unfold Rdiv; ring). change (Rpowf 0 y = 0). unfold Rpowf.
      destruct (Rlt_dec 0 0); [lra|]. destruct (Req_EM_T 0 0); [|congruence]. destruct (Req_EM_T y 0); [contradiction|reflexivity]. }
    rewrite P0.
    + rewrite Rminus_diag_eq by reflexivity. replace (0 / a) with 0 by (unfold Rdiv; ring).
      match goal with |- Ok (2 * acos ?z) = _ => replace z with 0 end; [rewrite acos_0; f_equal; lra|].
      unfold Rdiv. rewrite ?Rmult_0_r, ?Rmult_0_l, ?Rplus_0_l. rewrite ?Rmult_0_l. ring.
    + destruct Hpc as (Q1 & Q2 & Q3 & _). match goal with |- (_ + ?s) / _ <> 0 => set (q := s) end.
      assert (0 <= q) by apply sqrt_pos. apply Rgt_not_eq, Rdiv_lt_0_compat; lra.
  - unfold scattering_angle. rewrite (gm_angle_value _ _ _ _ _ _ _ _ _ V HV). fold a. f_equal.
    assert (Z : Rsum (map (gm_term 0 (E0 * Mb / (Ma + Mb)) (x * a) V n) (seq 1 n)) = 0); [|rewrite Z; lra].
    induction (seq 1 n) as [|i l IH]; [reflexivity|]. cbn [map]. unfold Rsum in *. cbn [fold_right]. rewrite IH. unfold gm_term, Rdiv. rewrite !Rmult_0_l. ring.
  - unfold scattering_angle. rewrite (gl_angle_value _ _ _ _ _ _ _ _ V HV). fold a. f_equal.
    assert (Z : forall u, gl_value V (E0 * Mb / (Ma + Mb)) 0 (x * a) u = 0) by (intro u; unfold gl_value, Rdiv; rewrite Rmult_0_r, !Rmult_0_l; reflexivity).
    unfold rule. rewrite !Z. lra.
Qed.
Print Assumptions C122_head_on.

Lemma cbc_angle build (p1 p2 : Particle R) bcg options r ip si :
  idx2 (o_interaction_potential options) (p_interaction_index p1) (p_interaction_index p2) = Ok ip ->
  idx2 (o_scattering_integral options) (p_interaction_index p1) (p_interaction_index p2) = Ok si ->
  calculate_binary_collision build p1 p2 bcg options = Ok (Some r) ->
  scattering_angle (p_Z p1) (p_Z p2) (p_m p1) (p_m p2) (p_E p1) (bcg_impact_parameter bcg)
    (bcr_normalized_distance_of_closest_approach r) ip si = Ok (bcr_theta r).
Proof.
  intros Hi Hq. unfold calculate_binary_collision. rewrite Hi, Hq. cbn [bind]. intro H.
  apply bind_ok in H. destruct H as (x0 & _ & H). apply bind_ok in H. destruct H as (t & H1 & H).
  change (nis_nan t) with false in H. cbv iota in H. injection H as <-. cbn [collision_kinematics bcr_theta bcr_normalized_distance_of_closest_approach]. exact H1.
Qed.
Lemma half_sin2_mono t1 t2 : 0 <= t2 -> t2 < t1 -> t1 <= PI -> sin (t2 / 2) * sin (t2 / 2) < sin (t1 / 2) * sin (t1 / 2).
Proof.
  intros H0 H1 H2. pose proof PI_RGT_0. assert (0 <= sin (t2 / 2)) by (apply sin_ge_0; lra).
  assert (sin (t2 / 2) < sin (t1 / 2)) by (apply sin_increasing_1; lra). apply Rmult_le_0_lt_compat; assumption.
Qed.
(** Two computed collisions of the same pair that differ in the impact parameter: the
    closer one transfers more energy and sends the recoil more forward; a head-on one
    transfers the kinematic maximum straight ahead. *)
Theorem C122_closer_collisions_transfer_more_energy :
  forall build (ion target : Particle R) (g1 g2 : BinaryCollisionGeometry R) options r1 r2 ip si V,
    idx2 (o_interaction_potential options) (p_interaction_index ion) (p_interaction_index target) = Ok ip ->
    idx2 (o_scattering_integral options) (p_interaction_index ion) (p_interaction_index target) = Ok si ->
    screened ip -> si = MENDENHALL_WELLER \/ (exists n, si = GAUSS_MEHLER n /\ (0 < n)%nat) ->
    0 < p_Z ion -> 0 < p_Z target -> 0 < p_m ion -> 0 < p_m target -> 0 < p_E ion ->
    0 <= bcg_impact_parameter g1 < bcg_impact_parameter g2 ->
    calculate_binary_collision build ion target g1 options = Ok (Some r1) ->
    calculate_binary_collision build ion target g2 options = Ok (Some r2) ->
    let a := screening_length (p_Z ion) (p_Z target) ip in
    let E := p_E ion * p_m target / (p_m ion + p_m target) in
    let x1 := bcr_normalized_distance_of_closest_approach r1 in
    let x2 := bcr_normalized_distance_of_closest_approach r2 in
    is_potential a (p_Z ion) (p_Z target) ip V -> 0 < x1 -> 0 < x2 ->
    turning_point V E (bcg_impact_parameter g1) (x1 * a) -> turning_point V E (bcg_impact_parameter g2) (x2 * a) ->
    0 < bcr_recoil_energy r2 < bcr_recoil_energy r1 /\ bcr_psi_recoil r1 < bcr_psi_recoil r2 < PI / 2 /\ x1 < x2 /\
    (bcg_impact_parameter g1 = 0 ->
       bcr_theta r1 = PI /\ bcr_psi_recoil r1 = 0 /\
       bcr_recoil_energy r1 = 4 * p_m ion * p_m target / ((p_m ion + p_m target) * (p_m ion + p_m target)) * p_E ion).
Proof.
  intros build ion target g1 g2 options r1 r2 ip si V Hi Hq Hs Hsi Ha Hb Hma Hmb HE0 Hp C1 C2 a E x1 x2 HV X1 X2 T1 T2.
  assert (Q : quadrature si) by (destruct Hsi as [-> |(n & -> & Hn)]; cbn; auto).
  assert (NG : si <> GAUSS_LEGENDRE) by (destruct Hsi as [-> |(n & -> & Hn)]; discriminate).
  destruct (C122_closer_collisions_deflect_more (p_Z ion) (p_Z target) (p_m ion) (p_m target) (p_E ion) _ _ x1 x2 ip si V
    Hs Q Ha Hb Hma Hmb HE0 Hp X1 X2 HV T1 T2) as (LX & t1 & t2 & A1 & A2 & L & U & N). specialize (N NG).
  pose proof (cbc_angle _ _ _ _ _ _ _ _ Hi Hq C1) as B1. pose proof (cbc_angle _ _ _ _ _ _ _ _ Hi Hq C2) as B2.
  change (bcr_normalized_distance_of_closest_approach r1) with x1 in B1. change (bcr_normalized_distance_of_closest_approach r2) with x2 in B2.
  rewrite A1 in B1. rewrite A2 in B2. injection B1 as E1. injection B2 as E2. subst t1 t2.
  destruct (cbc_angles _ _ _ _ _ _ Hma Hmb (Rlt_le _ _ HE0) C1 ltac:(lra)) as (S1 & _).
  destruct (cbc_angles _ _ _ _ _ _ Hma Hmb (Rlt_le _ _ HE0) C2 ltac:(lra)) as (S2 & _).
  destruct (cbc_kinematics _ _ _ _ _ _ C1) as (a1 & y1 & c1 & K1). destruct (cbc_kinematics _ _ _ _ _ _ C2) as (a2 & y2 & c2 & K2).
  assert (R1 : bcr_recoil_energy r1 = 4 * (p_m ion * p_m target) / ((p_m ion + p_m target) * (p_m ion + p_m target)) * p_E ion * (sin (bcr_theta r1 / 2) * sin (bcr_theta r1 / 2)))
    by (rewrite K1 at 1; apply kin_T).
  assert (R2 : bcr_recoil_energy r2 = 4 * (p_m ion * p_m target) / ((p_m ion + p_m target) * (p_m ion + p_m target)) * p_E ion * (sin (bcr_theta r2 / 2) * sin (bcr_theta r2 / 2)))
    by (rewrite K2 at 1; apply kin_T).
  assert (G : 0 < 4 * (p_m ion * p_m target) / ((p_m ion + p_m target) * (p_m ion + p_m target)) * p_E ion).
  { apply Rmult_lt_0_compat; [|exact HE0]. apply Rdiv_lt_0_compat; [|apply Rmult_lt_0_compat; lra]. pose proof (Rmult_lt_0_compat _ _ Hma Hmb). lra. }
  set (g := 4 * (p_m ion * p_m target) / _ * _) in *.
  pose proof (half_sin2_mono (bcr_theta r2) 0 ltac:(lra) N ltac:(lra)) as M0. pose proof (half_sin2_mono (bcr_theta r1) (bcr_theta r2) ltac:(lra) L U) as M.
  replace (0 / 2) with 0 in M0 by lra. rewrite sin_0, Rmult_0_l in M0.
  split; [rewrite R1, R2; split; [apply Rmult_lt_0_compat; assumption|apply Rmult_lt_compat_l; assumption]|].
  split; [lra|]. split; [exact LX|]. intro Z.
  assert (TH : bcr_theta r1 = PI).
  { rewrite Z in A1, T1.
    assert (HE : E <> 0) by (apply Rgt_not_eq; unfold E; apply Rdiv_lt_0_compat; [apply Rmult_lt_0_compat; assumption|lra]).
    pose proof (C122_head_on (p_Z ion) (p_Z target) (p_m ion) (p_m target) (p_E ion) x1 ip si V Ha Hb X1 HV T1 HE (fun _ => Hs)) as H.
    rewrite H in A1; [injection A1 as <-; reflexivity|]. intro F. destruct Hsi as [-> |(n & -> & _)]; discriminate. }
  rewrite TH in *. split; [reflexivity|]. split; [lra|]. rewrite R1. rewrite sin_PI2. unfold g. field. lra.
Qed.
Print Assumptions C122_closer_collisions_transfer_more_energy.
(** every pair of atoms, energy and pair of impact parameters meets the hypotheses *)
Example C122_met : forall Za Zb E p1 p2 (ip : InteractionPotential R), screened ip -> 0 < Za -> 0 < Zb -> 0 < E -> 0 <= p1 < p2 ->
  exists V x1 x2, let a := screening_length Za Zb ip in is_potential a Za Zb ip V /\ 0 < x1 /\ 0 < x2 /\
    turning_point V E p1 (x1 * a) /\ turning_point V E p2 (x2 * a).
Proof.
  intros Za Zb E p1 p2 ip Hs Ha Hb HE Hp. set (a := screening_length Za Zb ip). pose proof (screening_length_pos Za Zb ip Hs Ha Hb) as HA. fold a in HA.
  destruct (unique_turning_point_screened Za Zb E p1 ip Hs Ha Hb HE ltac:(lra)) as (r1 & (R1 & T1 & _) & _). fold a in T1.
  destruct (unique_turning_point_screened Za Zb E p2 ip Hs Ha Hb HE ltac:(lra)) as (r2 & (R2 & T2 & _) & _). fold a in T2.
  eexists _, (r1 / a), (r2 / a). cbv zeta. fold a. split; [intro r; apply (screened_potential_R r a Za Zb ip Hs)|].
  split; [apply Rdiv_lt_0_compat; assumption|]. split; [apply Rdiv_lt_0_compat; assumption|].
  replace (r1 / a * a) with r1 by (field; lra). replace (r2 / a * a) with r2 by (field; lra). split; assumption.
Qed.
