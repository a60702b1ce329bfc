(** * PropertiesPotential.v - C99, C100, C101: the shapes of the interaction potentials *)
From Coq Require Import ZArith List Bool Lia Reals Lra.
From Verif Require Import Num NumR ModelTypes ModelConsts ModelInteractions ProofsBase SpecR SpecCollision ProofsInteractions SpecPotential ProofsPotential ProofsWW.
Import ListNotations.
Open Scope R_scope.

Lemma potential_value a Za Zb ip V f : is_potential a Za Zb ip V -> (forall r, interaction_potential r a Za Zb ip = Ok (f r)) -> forall r, V r = f r.
Proof. intros HV Hf r. specialize (HV r). rewrite Hf in HV. congruence. Qed.

(** ** C99 *)
(** Screened potentials are repulsive at every distance, fall off, stay below the
    bare Coulomb repulsion, and approach it at distances short of the screening
    length [a]. *)
Theorem C99_screened_potentials :
  forall ip a Za Zb V, screened ip -> ip <> LENZ_JENSEN -> 0 < a -> 0 < Za -> 0 < Zb -> is_potential a Za Zb ip V ->
    (forall r s, 0 < r -> r < s -> V s < V r) /\
    (forall r, 0 < r -> 0 < V r < bare_coulomb Za Zb r /\ (1 - 14 / 10 * (r / a)) * bare_coulomb Za Zb r <= V r).
Proof.
  intros ip a Za Zb V Hs Hl Ha HA HB HV. pose proof (screening_terms_pos ip Hs) as Hp.
  assert (E : forall r, 0 < r -> V r = bare_coulomb Za Zb r * expsum (screening_terms ip) (r / a)).
  { intros r Hr. rewrite <- bare_spec by exact Hr. apply (potential_value a Za Zb ip V _ HV (fun r => screened_potential_R r a Za Zb ip Hs)). }
  split.
  - intros r s Hr Hrs. rewrite (E r), (E s) by lra. assert (r / a < s / a) by (apply Rmult_lt_compat_r; [apply Rinv_0_lt_compat|]; assumption).
    apply Rmult_le_0_lt_compat; [left; apply bare_pos; lra|left; apply expsum_pos; exact Hp|apply bare_decr; assumption|apply expsum_decr; assumption].
  - intros r Hr. rewrite (E r Hr). pose proof (bare_pos Za Zb r HA HB Hr) as HC. assert (Hx : 0 < r / a) by (apply Rdiv_lt_0_compat; assumption).
    pose proof (expsum_pos (screening_terms ip) (r / a) Hp) as H0. pose proof (expsum_decr (screening_terms ip) 0 (r / a) Hp Hx) as H1.
    rewrite expsum_0, terms_sum1 in H1 by assumption. split; [split; [apply Rmult_lt_0_compat; assumption|]|].
    + rewrite <- (Rmult_1_r (bare_coulomb Za Zb r)) at 2. apply Rmult_lt_compat_l; assumption.
    + rewrite Rmult_comm. apply Rmult_le_compat_l; [lra|]. apply phi_lower; [exact Hs|lra].
Qed.
Print Assumptions C99_screened_potentials.
(** the Lenz-Jensen coefficients add up to 1.00008: same shape, but up to 80 ppm above the bare repulsion *)
Theorem C99_lenz_jensen_partial :
  forall a Za Zb V, 0 < a -> 0 < Za -> 0 < Zb -> is_potential a Za Zb LENZ_JENSEN V ->
    (forall r s, 0 < r -> r < s -> V s < V r) /\
    (forall r, 0 < r -> 0 < V r < 100008 / 100000 * bare_coulomb Za Zb r /\ (1 - 14 / 10 * (r / a)) * bare_coulomb Za Zb r <= V r).
Proof.
  intros a Za Zb V Ha HA HB HV. pose proof (screening_terms_pos LENZ_JENSEN I) as Hp.
  assert (E : forall r, 0 < r -> V r = bare_coulomb Za Zb r * expsum (screening_terms LENZ_JENSEN) (r / a)).
  { intros r Hr. rewrite <- bare_spec by exact Hr. apply (potential_value a Za Zb LENZ_JENSEN V _ HV (fun r => screened_potential_R r a Za Zb LENZ_JENSEN I)). }
  split.
  - intros r s Hr Hrs. rewrite (E r), (E s) by lra. assert (r / a < s / a) by (apply Rmult_lt_compat_r; [apply Rinv_0_lt_compat|]; assumption).
    apply Rmult_le_0_lt_compat; [left; apply bare_pos; lra|left; apply expsum_pos; exact Hp|apply bare_decr; assumption|apply expsum_decr; assumption].
  - intros r Hr. rewrite (E r Hr). pose proof (bare_pos Za Zb r HA HB Hr) as HC. assert (Hx : 0 < r / a) by (apply Rdiv_lt_0_compat; assumption).
    pose proof (expsum_pos (screening_terms LENZ_JENSEN) (r / a) Hp) as H0. pose proof (expsum_decr (screening_terms LENZ_JENSEN) 0 (r / a) Hp Hx) as H1.
    rewrite expsum_0 in H1. pose proof (screening_terms_sum LENZ_JENSEN I). split; [split; [apply Rmult_lt_0_compat; assumption|]|].
    + rewrite Rmult_comm. apply Rmult_lt_compat_r; lra.
    + rewrite Rmult_comm. apply Rmult_le_compat_l; [lra|]. apply phi_lower; [exact I|lra].
Qed.
Print Assumptions C99_lenz_jensen_partial.
(** close to the nuclei it exceeds the bare repulsion *)
Theorem C99_lenz_jensen_refuted :
  forall a Za Zb V, 0 < a -> 0 < Za -> 0 < Zb -> is_potential a Za Zb LENZ_JENSEN V ->
    exists r, 0 < r /\ bare_coulomb Za Zb r < V r.
Proof.
  intros a Za Zb V Ha HA HB HV. exists (a / 100000). assert (Hr : 0 < a / 100000) by (apply Rdiv_lt_0_compat; lra). split; [exact Hr|].
  rewrite (potential_value a Za Zb LENZ_JENSEN V _ HV (fun r => screened_potential_R r a Za Zb LENZ_JENSEN I)). rewrite bare_spec by exact Hr.
  rewrite <- (Rmult_1_r (bare_coulomb Za Zb (a / 100000))) at 1. apply Rmult_lt_compat_l; [apply bare_pos; assumption|].
  replace (a / 100000 / a) with (1 / 100000) by (field; lra).
  pose proof (expsum_convex _ 0 (1 / 100000) (screening_terms_pos LENZ_JENSEN I)) as H. rewrite expsum_0 in H.
  pose proof (screening_terms_slope LENZ_JENSEN I) as Hd. unfold Rsum in H. cbn [screening_terms map fold_right fst] in H.
  change [(1018 / 100000, 206 / 1000); (24330 / 100000, 3876 / 10000); (7466 / 10000, 1038 / 1000)] with (screening_terms LENZ_JENSEN) in H. lra.
Qed.
Print Assumptions C99_lenz_jensen_refuted.
(** it does not matter which of the two atoms is the projectile *)
Theorem C99_exchange :
  forall ip r a Za Zb,
    screening_length Za Zb ip = screening_length Zb Za ip /\
    interaction_potential r a Za Zb ip = interaction_potential r a Zb Za ip /\
    (forall Z1 Z2, interaction_potential r a Za Zb (COULOMB Z1 Z2) = interaction_potential r a Za Zb (COULOMB Z2 Z1) /\
                   screening_length Za Zb (COULOMB Z1 Z2) = screening_length Za Zb (COULOMB Z2 Z1)).
Proof.
  intros ip r a Za Zb. split; [|split].
  - destruct ip; cbn [screening_length]; cbv zeta; toR; try reflexivity;
      try (rewrite (Rplus_comm (sqrt Za)); reflexivity); rewrite (Rplus_comm (npowf Za _)); reflexivity.
  - destruct ip; cbn [interaction_potential]; unfold screened_coulomb, krc_morse; try reflexivity;
      cbn [phi bind]; change (@nmul R NumR) with Rmult; rewrite (Rmult_comm Za Zb); reflexivity.
  - intros Z1 Z2. cbn [interaction_potential screening_length]. cbv zeta. unfold coulomb. change (@nmul R NumR) with Rmult. change (@nadd R NumR) with Rplus.
    rewrite (Rmult_comm Z1 Z2), (Rplus_comm (npowf Z1 _)). split; reflexivity.
Qed.
Print Assumptions C99_exchange.
(** the screening lengths of Ziegler-Biersack-Littmark and of Lindhard and Firsov *)
Theorem C99_screening_lengths :
  forall Za Zb, 0 < Za -> 0 < Zb ->
    screening_length Za Zb ZBL = 88534 / 100000 * bohr_radius / (Rpower Za (23 / 100) + Rpower Zb (23 / 100)) /\
    (forall ip, screened ip -> ip <> ZBL -> screening_length Za Zb ip = 8853 / 10000 * bohr_radius / Rpower (sqrt Za + sqrt Zb) (2 / 3)) /\
    (forall ip, screened ip -> 0 < screening_length Za Zb ip).
Proof.
  intros Za Zb HA HB. pose proof (sqrt_lt_R0 _ HA). pose proof (sqrt_lt_R0 _ HB). split; [|split].
  - cbn [screening_length]. cbv zeta. rewrite cA0_spec, !nlit_neg. change (10 ^ 5)%Z with 100000%Z. change (10 ^ 2)%Z with 100%Z. toR.
    rewrite !npowf_pos by assumption. reflexivity.
  - intros ip Hs Hz. assert (E : nlit 8853 (-4) *! cA0 *! npowf (nsqrt Za +! nsqrt Zb) (nZ (-2) /! nZ 3) = 8853 / 10000 * bohr_radius / Rpower (sqrt Za + sqrt Zb) (2 / 3)).
    { rewrite cA0_spec, nlit_neg. change (10 ^ 4)%Z with 10000%Z. toR. rewrite npowf_pos by lra. replace (-2 / 3) with (- (2 / 3)) by field. rewrite Rpower_Ropp. reflexivity. }
    destruct ip; cbn [screened] in Hs; try destruct Hs; try congruence; cbn [screening_length]; cbv zeta; exact E.
  - intros ip Hs. apply screening_length_pos; assumption.
Qed.
Print Assumptions C99_screening_lengths.
Example C99_applies : screened KR_C /\ is_potential 1 1 1 KR_C (fun r => 1 * 1 * cQ * cQ / 4 / PI / cEPS0 / r * expsum (screening_terms KR_C) (r / 1)).
Proof. split; [exact I|]. intros r. apply (screened_potential_R r 1 1 1 KR_C). exact I. Qed.

(** ** C100: the attractive potentials have one minimum, at the distance and of the
    depth their parameters say *)
Theorem C100_wells :
  forall a Za Zb ip V, is_potential a Za Zb ip V ->
    match ip with
    | LENNARD_JONES_12_6 sigma epsilon => 0 < sigma -> 0 < epsilon -> well V (Rpower 2 (1 / 6) * sigma) epsilon
    | LENNARD_JONES_65_6 sigma epsilon => 0 < sigma -> 0 < epsilon -> well V ((13 / 12) ^ 2 * sigma) (4 / 13 * (12 / 13) ^ 12 * epsilon)
    | MORSE D alpha r0 => 0 < D -> 0 < alpha -> 0 < r0 -> well V r0 D
    | FOUR_EIGHT alpha beta => 0 < alpha -> 0 < beta -> well V (Rpower (2 * beta / alpha) (1 / 4)) (alpha ^ 2 / (4 * beta))
    | _ => True
    end.
Proof.
  intros a Za Zb ip V HV. assert (X : forall f r d, (forall r, V r = f r) -> well f r d -> well V r d).
  { intros f r d Hf (W1 & W2 & W3). split; [exact W1|]. split; [rewrite Hf; exact W2|]. intros s. rewrite Hf. apply W3. }
  destruct ip; try exact I.
  - intros H1 H2. apply (X _ _ _ (potential_value _ _ _ _ V _ HV (fun r => eq_refl))). apply lj_well; assumption.
  - intros H1 H2. apply (X _ _ _ (potential_value _ _ _ _ V _ HV (fun r => eq_refl))). apply lj65_well; assumption.
  - intros H1 H2 H3. apply (X _ _ _ (potential_value _ _ _ _ V _ HV (fun r => eq_refl))). apply morse_well; lra.
  - intros H1 H2. apply (X _ _ _ (potential_value _ _ _ _ V _ HV (fun r => eq_refl))). apply four_eight_well; assumption.
Qed.
Print Assumptions C100_wells.
Example C100_applies : exists V, is_potential 1 1 1 (MORSE 2 3 4) V /\ well V 4 2.
Proof.
  exists (fun r => morse r 2 3 4). split; [intros r; reflexivity|].
  apply (C100_wells 1 1 1 (MORSE 2 3 4)); [intros r; reflexivity|lra|lra|lra].
Qed.

(** ** C101: joined potentials *)
(** The tungsten-tungsten potential is continuous except at its two joints, where it
    jumps by at most 0.3 eV (of 282 eV) and 1e-9 eV; it ends at 4.2689 angstrom. *)
Theorem C101_tungsten :
  forall a Za Zb V, is_potential a Za Zb WW V ->
    (forall r, 0 < r -> r <> 110002200044 / 10 ^ 11 * angstrom -> r <> 210004200084 / 10 ^ 11 * angstrom -> jumps_at_most 0 V r) /\
    jumps_at_most (3 / 10 * electronvolt) V (110002200044 / 10 ^ 11 * angstrom) /\
    jumps_at_most (/ 10 ^ 9 * electronvolt) V (210004200084 / 10 ^ 11 * angstrom) /\
    (forall r, 42689 / 10000 * angstrom <= r -> V r = 0) /\
    (forall r, 0 < r -> r <= 110002200044 / 10 ^ 11 * angstrom -> interaction_potential r (screening_length 74 74 ZBL) 74 74 ZBL = Ok (V r)).
Proof.
  intros a Za Zb V HV. fold w_x1 w_x2. pose proof angstrom_pos as HA. pose proof ev_pos as HE.
  assert (X12 : 0 < w_x1 < w_x2 /\ w_x2 < 3) by (unfold w_x1, w_x2; lra). destruct X12 as ((X1 & X2) & X3).
  assert (EV : forall r, 0 < r -> V r = w_potential r).
  { intros r Hr. rewrite <- ww_R by exact Hr. apply (potential_value a Za Zb WW V _ HV (fun r => eq_refl)). }
  assert (LE : forall r c, r / angstrom <= c <-> r <= c * angstrom).
  { intros r c. split; intros H; [apply (Rmult_le_compat_r angstrom) in H; [|lra]|apply (Rmult_le_compat_r (/ angstrom)) in H; [|left; apply Rinv_0_lt_compat; lra]].
    - unfold Rdiv in H. rewrite Rmult_assoc, Rinv_l in H by lra. lra.
    - rewrite Rmult_assoc, Rinv_r in H by lra. unfold Rdiv. lra. }
  assert (P1 : forall r, 0 < r -> r <= w_x1 * angstrom -> V r = w_short r).
  { intros r Hr H. rewrite (EV r Hr). unfold w_potential. destruct (Rle_dec (r / angstrom) w_x1) as [|N]; [reflexivity|]. exfalso. apply N. apply LE. exact H. }
  assert (P2 : forall r, w_x1 * angstrom < r -> r <= w_x2 * angstrom -> V r = w_mid (r / angstrom) * electronvolt).
  { intros r H H'. assert (Hr : 0 < r) by (pose proof (Rmult_lt_0_compat _ _ X1 HA); lra). rewrite (EV r Hr). unfold w_potential.
    destruct (Rle_dec (r / angstrom) w_x1) as [N|_]; [apply LE in N; lra|]. destruct (Rle_dec (r / angstrom) w_x2) as [|N]; [reflexivity|]. exfalso. apply N. apply LE. exact H'. }
  assert (P3 : forall r, w_x2 * angstrom < r -> V r = w_long (r / angstrom) * electronvolt).
  { intros r H. assert (Hr : 0 < r) by (pose proof (Rmult_lt_0_compat w_x2 _ ltac:(lra) HA); lra). rewrite (EV r Hr). unfold w_potential.
    pose proof (Rmult_lt_compat_r _ _ _ HA X2) as M.
    destruct (Rle_dec (r / angstrom) w_x1) as [N|_]; [apply LE in N; lra|]. destruct (Rle_dec (r / angstrom) w_x2) as [N|_]; [apply LE in N; lra|reflexivity]. }
  set (c1 := w_x1 * angstrom) in *. set (c2 := w_x2 * angstrom) in *.
  assert (C1 : 0 < c1) by (apply Rmult_lt_0_compat; lra). assert (C2 : c1 < c2) by (apply Rmult_lt_compat_r; lra).
  assert (D1 : c1 / angstrom = w_x1) by (unfold c1; field; lra). assert (D2 : c2 / angstrom = w_x2) by (unfold c2; field; lra).
  assert (AB : forall r c d, Rabs (r - c) < d -> c - d < r < c + d) by (intros r c d H; apply Rabs_def2 in H; lra).
  split; [|split; [|split; [|split]]].
  - intros r Hr N1 N2. destruct (Rtotal_order r c1) as [L|[E|G]]; [|contradiction|].
    + apply (one_piece V w_short r (Rmin r (c1 - r))); [apply short_cont; exact Hr|apply Rmin_glb_lt; lra|].
      intros s Hs. apply AB in Hs. pose proof (Rmin_l r (c1 - r)). pose proof (Rmin_r r (c1 - r)). apply P1; lra.
    + destruct (Rtotal_order r c2) as [L|[E|G2]]; [|contradiction|].
      * apply (one_piece V (fun r => w_mid (r / angstrom) * electronvolt) r (Rmin (r - c1) (c2 - r))); [apply scaled_cont, mid_cont|apply Rmin_glb_lt; lra|].
        intros s Hs. apply AB in Hs. pose proof (Rmin_l (r - c1) (c2 - r)). pose proof (Rmin_r (r - c1) (c2 - r)). apply P2; lra.
      * apply (one_piece V (fun r => w_long (r / angstrom) * electronvolt) r (r - c2)); [apply scaled_cont, long_cont|lra|].
        intros s Hs. apply AB in Hs. apply P3; lra.
  - apply (join_jump V w_short (fun r => w_mid (r / angstrom) * electronvolt) c1 _ (Rmin c1 (c2 - c1))).
    + apply short_cont; exact C1.
    + apply scaled_cont, mid_cont.
    + apply Rmin_glb_lt; lra.
    + intros s Hs. apply AB in Hs. pose proof (Rmin_l c1 (c2 - c1)). pose proof (Rmin_r c1 (c2 - c1)).
      destruct (Rle_or_lt s c1); [left; apply P1; lra|right; apply P2; lra].
    + apply P1; lra.
    + rewrite D1. exact jump1.
    + apply Rmult_le_pos; lra.
  - apply (join_jump V (fun r => w_mid (r / angstrom) * electronvolt) (fun r => w_long (r / angstrom) * electronvolt) c2 _ (c2 - c1)).
    + apply scaled_cont, mid_cont.
    + apply scaled_cont, long_cont.
    + lra.
    + intros s Hs. apply AB in Hs. destruct (Rle_or_lt s c2); [left; apply P2; lra|right; apply P3; lra].
    + apply P2; lra.
    + rewrite D2. rewrite <- Rmult_minus_distr_r, Rabs_mult, (Rabs_right electronvolt) by lra. apply Rmult_le_compat_r; [lra|]. exact jump2.
    + apply Rmult_le_pos; [|lra]. left. apply Rinv_0_lt_compat. apply pow_lt. lra.
  - intros r H. assert (K : c2 < 42689 / 10000 * angstrom) by (apply Rmult_lt_compat_r; lra). rewrite P3 by lra. rewrite long_zero; [ring|].
    apply (Rmult_le_reg_r angstrom); [lra|]. unfold Rdiv at 2. rewrite Rmult_assoc, Rinv_l by lra. lra.
  - intros r Hr H. rewrite (P1 r Hr H). unfold w_short. rewrite <- bare_spec by exact Hr. apply (screened_potential_R r _ 74 74 ZBL). exact I.
Qed.
Print Assumptions C101_tungsten.
(** The joined KR-C and Morse potential lies between the two everywhere; below the
    joint [x0] it tends to KR-C and above to Morse, exponentially with rate [k]. *)
Theorem C101_krc_morse :
  forall a Za Zb D alpha r0 k x0 V K M,
    is_potential a Za Zb (KRC_MORSE D alpha r0 k x0) V -> is_potential a Za Zb KR_C K -> is_potential a Za Zb (MORSE D alpha r0) M ->
    forall r, between (K r) (M r) (V r) /\
      Rabs (V r - K r) <= exp (k * (r - x0)) * Rabs (M r - K r) /\ Rabs (V r - M r) <= exp (k * (x0 - r)) * Rabs (M r - K r).
Proof.
  intros a Za Zb D alpha r0 k x0 V K M HV HK HM r. specialize (HV r). specialize (HK r). specialize (HM r).
  cbn [interaction_potential] in HV, HM. assert (EM : M r = morse r D alpha r0) by congruence.
  assert (EV : V r = krc_morse r a Za Zb D alpha r0 k x0) by congruence. rewrite (krc_morse_mix _ _ _ _ _ _ _ _ _ _ HK), <- EM in EV.
  pose proof (sigmoid_bounds r k x0) as S. pose proof (sigmoid_le r k x0) as S1. pose proof (sigmoid_ge r k x0) as S2.
  set (s := sigmoid r k x0) in *. rewrite EV. split; [|split].
  - unfold between. split; [apply Rmin_case_strong|apply Rmax_case_strong]; intros L.
    + assert (0 <= s * (M r - K r)) by (apply Rmult_le_pos; lra). lra.
    + assert (0 <= (1 - s) * (K r - M r)) by (apply Rmult_le_pos; lra). lra.
    + assert (0 <= s * (K r - M r)) by (apply Rmult_le_pos; lra). lra.
    + assert (0 <= (1 - s) * (M r - K r)) by (apply Rmult_le_pos; lra). lra.
  - replace (K r + s * (M r - K r) - K r) with (s * (M r - K r)) by ring. rewrite Rabs_mult, (Rabs_right s) by lra. apply Rmult_le_compat_r; [apply Rabs_pos|lra].
  - replace (K r + s * (M r - K r) - M r) with ((1 - s) * - (M r - K r)) by ring. rewrite Rabs_mult, Rabs_Ropp, (Rabs_right (1 - s)) by lra.
    apply Rmult_le_compat_r; [apply Rabs_pos|]. replace (k * (x0 - r)) with (- k * (r - x0)) by ring. lra.
Qed.
Print Assumptions C101_krc_morse.
Example C101_applies : exists V K M, is_potential 1 1 1 (KRC_MORSE 2 3 4 5 6) V /\ is_potential 1 1 1 KR_C K /\ is_potential 1 1 1 (MORSE 2 3 4) M /\
  is_potential 1 1 1 WW (fun r => tungsten_tungsten_cubic_spline r).
Proof.
  eexists (fun r => krc_morse r 1 1 1 2 3 4 5 6), _, (fun r => morse r 2 3 4). split; [intros r; reflexivity|]. split; [|split; intros r; reflexivity].
  intros r. apply (screened_potential_R r 1 1 1 KR_C). exact I.
Qed.
