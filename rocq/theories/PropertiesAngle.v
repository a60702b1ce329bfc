(** * PropertiesAngle.v - C115, C116: the scattering angle of the two built-in rules *)
From Coquelicot Require Import Coquelicot.
From Coq Require Import ZArith List Bool Lia Reals Lra.
From Verif Require Import Num ModelTypes ModelConsts ModelInteractions ModelBca ProofsBase NumR SpecR SpecCollision SpecAngle
  ProofsInteractions ProofsNewton ProofsCollision PropertiesCollision ProofsAngle.
Import ListNotations.
Open Scope R_scope.

(** ** C115 *)
(** [flight] is the classical integrand after the substitution r = r0 / cos (pi t / 2) *)
Theorem C115_classical_integral :
  forall (Za Zb E p x : R) (ip : InteractionPotential R) (V : R -> R),
    screened ip -> 0 < Za -> 0 < Zb -> 0 < E -> 0 < p -> 0 < x ->
    let a := screening_length Za Zb ip in
    is_potential a Za Zb ip V -> turning_point V E p (x * a) ->
    forall s t, 0 < s -> s <= t -> t < 1 ->
      RInt (scattering_density V E p) (x * a / cos (PI / 2 * s)) (x * a / cos (PI / 2 * t)) =
      PI * p / (x * a) * RInt (flight V E p (x * a)) s t.
Proof.
  intros Za Zb E p x ip V Hs Ha Hb HE Hp Hx a HV Ht s t H1 H2 H3. pose proof (sc_r0 Za Zb x ip Hs Ha Hb Hx) as R0.
  apply substitution; try assumption.
  - intros r Hr. apply (continuous_ext (fun r => Za * Zb * cQ * cQ / 4 / PI / cEPS0 / r * expsum (screening_terms ip) (r / a))).
    + intro r'. symmetry. apply potential_unique; assumption.
    + pose proof (screening_length_pos Za Zb ip Hs Ha Hb) as HA. fold a in R0. fold a in HA.
      apply (continuous_mult (fun r => Za * Zb * cQ * cQ / 4 / PI / cEPS0 / r) (fun r => expsum (screening_terms ip) (r / a))).
      * apply (continuous_mult (fun _ => Za * Zb * cQ * cQ / 4 / PI / cEPS0) Rinv); [apply continuous_const|apply continuous_Rinv; lra].
      * apply (continuous_comp (fun r => r / a) (expsum (screening_terms ip))).
        -- apply (continuous_mult (fun r => r) (fun _ => / a)); [apply continuous_id|apply continuous_const].
        -- apply (ex_derive_continuous (expsum (screening_terms ip))). exists (dexpsum (screening_terms ip) (r / a)). apply is_derive_Reals, expsum_deriv.
  - intros u Hu. apply (sc_radial_pos Za Zb E p x ip V Hs Ha Hb HE Hp Hx HV Ht u Hu).
Qed.
Print Assumptions C115_classical_integral.
(** the angle returned by the default rule is the four-point Gauss-Lobatto value of
    pi - pi p / r0 * (integral of [flight] over (0, 1)), its inner nodes rounded to four decimals *)
Theorem C115_mendenhall_weller_rule :
  forall (Za Zb Ma Mb E0 p x : R) (ip : InteractionPotential R) (V : R -> R),
    screened ip -> 0 < Za -> 0 < Zb -> 0 < Ma -> 0 < Mb -> 0 < E0 -> 0 < p -> 0 < x ->
    let a := screening_length Za Zb ip in
    let E := E0 * Mb / (Ma + Mb) in
    let r0 := x * a in
    is_potential a Za Zb ip V -> turning_point V E p r0 ->
    exists l0 l1 u1 s1 u2 s2 : R,
      filterlim (flight V E p r0) (at_right 0) (locally l0) /\
      filterlim (flight V E p r0) (at_left 1) (locally l1) /\
      Rabs (u1 - cos (PI / 2 * lobatto_1)) <= 5 / 100000 /\ Rabs (s1 - sin (PI / 2 * lobatto_1)) <= 5 / 100000 /\
      Rabs (u2 - cos (PI / 2 * lobatto_2)) <= 5 / 100000 /\ Rabs (s2 - sin (PI / 2 * lobatto_2)) <= 5 / 100000 /\
      0 < radial V E p r0 u1 /\ 0 < radial V E p r0 u2 /\
      scattering_angle Za Zb Ma Mb E0 p x ip MENDENHALL_WELLER =
        Ok (PI - PI * p / r0 * (1 / 12 * l0 + 5 / 12 * (s1 / sqrt (radial V E p r0 u1)) +
                                5 / 12 * (s2 / sqrt (radial V E p r0 u2)) + 1 / 12 * l1)).
Proof.
  intros Za Zb Ma Mb E0 p x ip V Hs Ha Hb Hma Hmb HE0 Hp Hx a E r0 HV Ht.
  assert (HE : 0 < E) by (unfold E; apply Rdiv_lt_0_compat; [apply Rmult_lt_0_compat; assumption|lra]).
  exists (/ sqrt (1 / 2 + p / (x * a) * (p / (x * a)) / 2 - dexpsum (screening_terms ip) x / 2 / reduced_energy a Za Zb E)), 1,
    (9072 / 10000), (4206 / 10000), (4206 / 10000), (9072 / 10000).
  destruct lobatto_values as (L1 & L2 & C2 & S2).
  rewrite C2, S2.
  split; [apply (sc_start Za Zb E p x ip V Hs Ha Hb HE Hp Hx HV Ht)|]. split; [apply (sc_end Za Zb E p x ip V Hs Ha Hb HE Hp Hx HV Ht)|].
  do 4 (split; [assumption|]). split; [apply (sc_radial_pos Za Zb E p x ip V Hs Ha Hb HE Hp Hx HV Ht); lra|].
  split; [apply (sc_radial_pos Za Zb E p x ip V Hs Ha Hb HE Hp Hx HV Ht); lra|].
  unfold scattering_angle. rewrite (mw_value Za Zb E p x ip V Hs Ha Hb HE Hp Hx HV Ht Ma Mb E0 Hma Hmb eq_refl).
  match goal with |- Ok ?l = Ok ?r => enough (l = r) as Q by (rewrite Q; reflexivity) end.
  unfold mw_sum. fold a. fold r0. unfold Rdiv. ring.
Qed.
Print Assumptions C115_mendenhall_weller_rule.
Theorem C115_angle_range :
  forall (Za Zb Ma Mb E0 p x : R) (ip : InteractionPotential R) (V : R -> R),
    screened ip -> 0 < Za -> 0 < Zb -> 0 < Ma -> 0 < Mb -> 0 < E0 -> 0 < p -> 0 < x ->
    let a := screening_length Za Zb ip in
    is_potential a Za Zb ip V -> turning_point V (E0 * Mb / (Ma + Mb)) p (x * a) ->
    exists theta, scattering_angle Za Zb Ma Mb E0 p x ip MENDENHALL_WELLER = Ok theta /\ 0 <= theta <= PI.
Proof.
  intros Za Zb Ma Mb E0 p x ip V Hs Ha Hb Hma Hmb HE0 Hp Hx a HV Ht.
  assert (HE : 0 < E0 * Mb / (Ma + Mb)) by (apply Rdiv_lt_0_compat; [apply Rmult_lt_0_compat; assumption|lra]).
  unfold scattering_angle. rewrite (mw_value Za Zb _ p x ip V Hs Ha Hb HE Hp Hx HV Ht Ma Mb E0 Hma Hmb eq_refl).
  eexists. split; [reflexivity|]. pose proof (mw_sum_bound Za Zb _ p x ip V Hs Ha Hb HE Hp Hx HV Ht) as B. pose proof PI_RGT_0 as HP.
  match type of B with 0 <= ?z <= 1 => set (w := z) in * end. split.
  - apply Rmult_le_pos; lra.
  - rewrite <- (Rmult_1_r PI) at 2. apply Rmult_le_compat_l; lra.
Qed.
Print Assumptions C115_angle_range.

(** ** C116 *)
Definition magic_table (ip : InteractionPotential R) : option magic_parameters :=
  match ip with
  | MOLIERE => Some magic_Moliere | KR_C => Some magic_KrC | ZBL => Some magic_ZBL | TRIDYN => Some magic_TRIDYN
  | _ => None
  end.
Lemma ok5 (a b c d e a' b' c' d' e' : R) : a = a' -> b = b' -> c = c' -> d = d' -> e = e' -> Ok (a, b, c, d, e) = Ok (a', b', c', d', e').
Proof. intros. subst. reflexivity. Qed.
Lemma magic_table_ok ip c : magic_table ip = Some c -> screened ip /\ magic_constants ip = Ok (C1 c, C2 c, C3 c, C4 c, C5 c) /\ magic_pos c.
Proof.
  intro H. unfold magic_table in H. destruct ip; try discriminate H; apply (f_equal (fun o => match o with Some y => y | None => c end)) in H; cbv beta iota in H; subst c;
    (split; [exact I|]); (split; [|unfold magic_pos, magic_Moliere, magic_KrC, magic_ZBL, magic_TRIDYN; cbn [C1 C2 C3 C4 C5]; lra]);
    unfold magic_constants, magic_Moliere, magic_KrC, magic_ZBL, magic_TRIDYN; cbn [C1 C2 C3 C4 C5].
  all: apply ok5; rewrite ?nlit_neg, ?nZ_R; change (10 ^ 1)%Z with 10%Z; change (10 ^ 2)%Z with 100%Z; change (10 ^ 3)%Z with 1000%Z; change (10 ^ 4)%Z with 10000%Z;
    change (10 ^ 5)%Z with 100000%Z; change (10 ^ 6)%Z with 1000000%Z; change (10 ^ 7)%Z with 10000000%Z; lra.
Qed.
Theorem C116_magic_formula :
  forall (Za Zb Ma Mb E0 p x dV : R) (ip : InteractionPotential R) (V : R -> R) (c : magic_parameters),
    magic_table ip = Some c -> 0 < Za -> 0 < Zb -> 0 < Ma -> 0 < Mb -> 0 < E0 -> 0 < p -> 0 < x ->
    let a := screening_length Za Zb ip in
    let E := E0 * Mb / (Ma + Mb) in
    is_potential a Za Zb ip V -> derivable_pt_lim V (x * a) dV ->
    scattering_angle Za Zb Ma Mb E0 p x ip MAGIC =
      Ok (magic_angle c (reduced_energy a Za Zb E) (p / a) x (-2 * (E - V (x * a)) / dV / a)).
Proof.
  intros Za Zb Ma Mb E0 p x dV ip V c Hc Ha Hb Hma Hmb HE0 Hp Hx a E HV HD. destruct (magic_table_ok ip c Hc) as (Hs & Hk & Hpc).
  assert (HE : 0 < E) by (unfold E; apply Rdiv_lt_0_compat; [apply Rmult_lt_0_compat; assumption|lra]).
  unfold scattering_angle. exact (magic_value Za Zb E p x ip V Hs Ha Hb HE Hp Hx HV Ma Mb E0 dV c Hma Hmb eq_refl HD Hk Hpc).
Qed.
Print Assumptions C116_magic_formula.
Theorem C116_angle_range :
  forall (Za Zb Ma Mb E0 p x : R) (ip : InteractionPotential R) (V : R -> R) (c : magic_parameters),
    magic_table ip = Some c -> 0 < Za -> 0 < Zb -> 0 < Ma -> 0 < Mb -> 0 < E0 -> 0 < p -> 0 < x ->
    let a := screening_length Za Zb ip in
    is_potential a Za Zb ip V -> turning_point V (E0 * Mb / (Ma + Mb)) p (x * a) ->
    exists theta, scattering_angle Za Zb Ma Mb E0 p x ip MAGIC = Ok theta /\ 0 < theta < PI.
Proof.
  intros Za Zb Ma Mb E0 p x ip V c Hc Ha Hb Hma Hmb HE0 Hp Hx a HV Ht. destruct (magic_table_ok ip c Hc) as (Hs & Hk & Hpc).
  assert (HE : 0 < E0 * Mb / (Ma + Mb)) by (apply Rdiv_lt_0_compat; [apply Rmult_lt_0_compat; assumption|lra]).
  destruct (sc_dV_exists Za Zb x ip V Hs Ha Hb Hx HV) as (dV & HD).
  pose proof (sc_a Za Zb ip Hs Ha Hb) as HA. fold a in HA.
  eexists. split; [exact (magic_value Za Zb _ p x ip V Hs Ha Hb HE Hp Hx HV Ma Mb E0 dV c Hma Hmb eq_refl HD Hk Hpc)|].
  apply magic_angle_range; [exact Hpc|apply (sc_e Za Zb _ ip Hs Ha Hb HE)|apply Rdiv_lt_0_compat; [exact Hp|exact HA]| |].
  - pose proof (sc_b2 Za Zb _ p x ip V Hs Ha Hb HE Hp Hx HV Ht) as B. fold a in B. fold a.
    apply Rmult_lt_reg_r with a; [exact HA|]. replace (p / a * a) with p by (field; lra).
    apply Rmult_lt_reg_r with (/ (x * a)); [apply Rinv_0_lt_compat, Rmult_lt_0_compat; assumption|].
    rewrite Rinv_r by (apply Rgt_not_eq, Rmult_lt_0_compat; assumption). exact B.
  - apply Rdiv_lt_0_compat; [|exact HA]. apply (sc_curvature Za Zb _ p x ip V Hs Ha Hb HE Hp Hx HV Ht dV HD).
Qed.
Print Assumptions C116_angle_range.
(** the hypotheses are met by every pair of atoms, energy and impact parameter *)
Example C115_C116_met : forall Za Zb Ma Mb E0 p (ip : InteractionPotential R), screened ip ->
  0 < Za -> 0 < Zb -> 0 < Ma -> 0 < Mb -> 0 < E0 -> 0 < p ->
  let a := screening_length Za Zb ip in
  exists V x, 0 < x /\ is_potential a Za Zb ip V /\ turning_point V (E0 * Mb / (Ma + Mb)) p (x * a).
Proof.
  intros Za Zb Ma Mb E0 p ip Hs Ha Hb Hma Hmb HE Hp a. pose proof (sc_a Za Zb ip Hs Ha Hb) as HA. fold a in HA.
  assert (HE1 : 0 < E0 * Mb / (Ma + Mb)) by (apply Rdiv_lt_0_compat; [apply Rmult_lt_0_compat; assumption|lra]).
  destruct (unique_turning_point_screened Za Zb _ p ip Hs Ha Hb HE1 ltac:(lra)) as (r & (Hr & Ht & _) & _). fold a in Ht.
  eexists. exists (r / a). split; [apply Rdiv_lt_0_compat; assumption|]. split; [intro r'; apply screened_potential_R; exact Hs|].
  replace (r / a * a) with r by (field; lra). exact Ht.
Qed.
Example C116_tables_met : exists c, magic_table (KR_C : InteractionPotential R) = Some c. Proof. eexists. reflexivity. Qed.
