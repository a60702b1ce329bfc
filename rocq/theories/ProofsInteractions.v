(** * ProofsInteractions.v - interactions.rs in exact arithmetic *)
From Coquelicot Require Import Coquelicot.
From Coq Require Import ZArith List Bool Lia Reals Lra.
From Verif Require Import Num ModelTypes ModelConsts ModelInteractions ModelBca ProofsBase NumR SpecR SpecCollision.
Import ListNotations.
Open Scope R_scope.

(** ** sums of decaying exponentials *)
Definition expsum (l : list (R * R)) (x : R) : R := Rsum (map (fun ck => fst ck * exp (- snd ck * x)) l).
Definition dexpsum (l : list (R * R)) (x : R) : R := Rsum (map (fun ck => - snd ck * fst ck * exp (- snd ck * x)) l).
Definition screening_terms (ip : InteractionPotential R) : list (R * R) :=
  match ip with
  | MOLIERE => [(35/100, 3/10); (55/100, 12/10); (10/100, 60/10)]
  | KR_C | TRIDYN => [(190945/1000000, 278544/1000000); (473674/1000000, 637174/1000000); (335381/1000000, 1919249/1000000)]
  | ZBL => [(2817/100000, 20162/100000); (28022/100000, 40290/100000); (50986/100000, 94229/100000); (18175/100000, 31998/10000)]
  | LENZ_JENSEN => [(1018/100000, 206/1000); (24330/100000, 3876/10000); (7466/10000, 1038/1000)]
  | _ => []
  end.
Lemma phi_R x ip : screened ip -> phi x ip = Ok (expsum (screening_terms ip) x).
Proof.
  destruct ip; cbn [screened phi]; intros H; try destruct H; f_equal;
    unfold moliere, kr_c, zbl, lenz_jensen, expsum, Rsum; cbn [screening_terms map fold_right fst snd];
    rewrite !nlit_neg; toR; change (10 ^ 1)%Z with 10%Z; change (10 ^ 2)%Z with 100%Z; change (10 ^ 3)%Z with 1000%Z; change (10 ^ 4)%Z with 10000%Z;
    change (10 ^ 5)%Z with 100000%Z; change (10 ^ 6)%Z with 1000000%Z; ring.
Qed.
Lemma dphi_R x ip : screened ip -> dphi x ip = Ok (dexpsum (screening_terms ip) x).
Proof.
  destruct ip; cbn [screened dphi]; intros H; try destruct H; f_equal;
    unfold diff_moliere, diff_kr_c, diff_zbl, diff_lenz_jensen, dexpsum, Rsum; cbn [screening_terms map fold_right fst snd];
    rewrite !nlit_neg; toR; change (10 ^ 1)%Z with 10%Z; change (10 ^ 2)%Z with 100%Z; change (10 ^ 3)%Z with 1000%Z; change (10 ^ 4)%Z with 10000%Z;
    change (10 ^ 5)%Z with 100000%Z; change (10 ^ 6)%Z with 1000000%Z; ring.
Qed.
Definition pos_terms (l : list (R * R)) : Prop := l <> [] /\ Forall (fun ck => 0 < fst ck /\ 0 < snd ck) l.
Lemma screening_terms_pos ip : screened ip -> pos_terms (screening_terms ip).
Proof.
  destruct ip; cbn [screened]; intros H; try destruct H; (split; [discriminate|]); cbn [screening_terms];
    repeat (constructor; [cbn [fst snd]; lra|]); constructor.
Qed.
Lemma expsum_deriv l x : derivable_pt_lim (expsum l) x (dexpsum l x).
Proof.
  apply is_derive_Reals. induction l as [|[c k] l IH].
  - unfold expsum, dexpsum; cbn. apply (is_derive_const (V := R_NormedModule) 0).
  - apply (is_derive_ext (fun x => plus (c * exp (- k * x)) (expsum l x))); [reflexivity|].
    change (dexpsum ((c, k) :: l) x) with (plus (- k * c * exp (- k * x)) (dexpsum l x)).
    apply (is_derive_plus (V := R_NormedModule)); [|exact IH]. auto_derive; [exact I|]. ring.
Qed.
Lemma expsum_cons c k l x : expsum ((c, k) :: l) x = c * exp (- k * x) + expsum l x.
Proof. reflexivity. Qed.
Lemma dexpsum_cons c k l x : dexpsum ((c, k) :: l) x = - k * c * exp (- k * x) + dexpsum l x.
Proof. reflexivity. Qed.
Lemma expsum_pos l x : pos_terms l -> 0 < expsum l x.
Proof.
  intros (Hne & H). induction H as [|[c k] l (Hc & Hk) H IH]; [congruence|].
  rewrite expsum_cons. cbn [fst snd] in *. pose proof (Rmult_lt_0_compat _ _ Hc (exp_pos (- k * x))).
  destruct l; [unfold expsum, Rsum; cbn [map fold_right]; lra|]. assert (0 < expsum (p :: l) x) by (apply IH; discriminate). lra.
Qed.
Lemma dexpsum_neg l x : pos_terms l -> dexpsum l x < 0.
Proof.
  intros (Hne & H). induction H as [|[c k] l (Hc & Hk) H IH]; [congruence|].
  rewrite dexpsum_cons. cbn [fst snd] in *.
  pose proof (Rmult_lt_0_compat _ _ (Rmult_lt_0_compat _ _ Hk Hc) (exp_pos (- k * x))).
  destruct l; [unfold dexpsum, Rsum; cbn [map fold_right]; lra|]. assert (dexpsum (p :: l) x < 0) by (apply IH; discriminate). lra.
Qed.
(** convexity *)
Lemma expsum_convex l x y : pos_terms l -> expsum l x + dexpsum l x * (y - x) <= expsum l y.
Proof.
  intros (_ & H). induction H as [|[c k] l (Hc & Hk) H IH]; [unfold expsum, dexpsum, Rsum; cbn [map fold_right]; lra|].
  rewrite !expsum_cons, dexpsum_cons. cbn [fst snd] in *.
  assert (c * exp (- k * x) + - k * c * exp (- k * x) * (y - x) <= c * exp (- k * y)); [|lra].
  replace (- k * y) with (- k * x + - k * (y - x)) by ring. rewrite exp_plus.
  pose proof (exp_ineq1_le (- k * (y - x))) as He.
  pose proof (Rmult_lt_0_compat _ _ Hc (exp_pos (- k * x))) as Hp.
  pose proof (Rmult_le_compat_l _ _ _ (Rlt_le _ _ Hp) He) as Hm. lra.
Qed.
Lemma expsum_decr l x y : pos_terms l -> x < y -> expsum l y < expsum l x.
Proof.
  intros Hp Hxy. pose proof (expsum_convex l y x Hp). pose proof (dexpsum_neg l y Hp).
  pose proof (Rmult_lt_0_compat (- dexpsum l y) (y - x) ltac:(lra) ltac:(lra)). lra.
Qed.
Lemma expsum_decr_le l x y : pos_terms l -> x <= y -> expsum l y <= expsum l x.
Proof. intros Hp [H| ->]; [left; apply expsum_decr; assumption|right; reflexivity]. Qed.
Lemma expsum_0 l : expsum l 0 = Rsum (map fst l).
Proof. unfold expsum. f_equal. apply map_ext. intros [c k]. cbn [fst snd]. rewrite Rmult_0_r, exp_0. ring. Qed.
Lemma dexpsum_incr l x y : pos_terms l -> x <= y -> dexpsum l x <= dexpsum l y.
Proof.
  intros Hp [Hxy| ->]; [|lra]. pose proof (expsum_convex l x y Hp). pose proof (expsum_convex l y x Hp).
  apply Rmult_le_reg_r with (y - x); lra.
Qed.
Lemma screening_terms_sum ip : screened ip -> Rsum (map fst (screening_terms ip)) <= 100008/100000.
Proof. destruct ip; cbn [screened]; intros H; try destruct H; unfold Rsum; cbn [screening_terms map fold_right fst]; lra. Qed.
Lemma screening_terms_slope ip : screened ip -> - dexpsum (screening_terms ip) 0 <= 14/10.
Proof.
  destruct ip; cbn [screened]; intros H; try destruct H; unfold dexpsum, Rsum; cbn [screening_terms map fold_right fst snd];
    rewrite !Rmult_0_r, exp_0; lra.
Qed.

(** ** constants *)
Lemma cQ_pos : 0 < (cQ : R). Proof. unfold cQ. rewrite nlit_neg. apply Rdiv_lt_0_compat; apply IZR_lt; reflexivity. Qed.
Lemma cEPS0_pos : 0 < (cEPS0 : R). Proof. unfold cEPS0. rewrite nlit_neg. apply Rdiv_lt_0_compat; apply IZR_lt; reflexivity. Qed.
Lemma cA0_pos : 0 < (cA0 : R). Proof. unfold cA0. rewrite nlit_neg. apply Rdiv_lt_0_compat; apply IZR_lt; reflexivity. Qed.
Lemma cANGSTROM_pos : 0 < (cANGSTROM : R). Proof. unfold cANGSTROM. rewrite nlit_neg. apply Rdiv_lt_0_compat; apply IZR_lt; reflexivity. Qed.
Lemma cEV_pos : 0 < (cEV : R). Proof. exact cQ_pos. Qed.
Lemma lit_pos m p : (0 < m)%Z -> 0 < (nlit m (Zneg p) : R).
Proof. intros H. rewrite nlit_neg. apply Rdiv_lt_0_compat; apply IZR_lt; [exact H|]. apply Z.pow_pos_nonneg; lia. Qed.
Lemma Rpower_gt0 x y : 0 < Rpower x y. Proof. unfold Rpower. apply exp_pos. Qed.
Lemma lindhard_length_pos (Za Zb : R) : 0 < Za -> 0 < Zb ->
  0 < nlit 8853 (-4) *! cA0 *! npowf (nsqrt Za +! nsqrt Zb) (nZ (-2) /! nZ 3).
Proof.
  intros Ha Hb. pose proof (sqrt_lt_R0 _ Ha). pose proof (sqrt_lt_R0 _ Hb). toR.
  rewrite npowf_pos by lra.
  apply Rmult_lt_0_compat; [apply Rmult_lt_0_compat; [apply lit_pos; reflexivity|exact cA0_pos]|apply Rpower_gt0].
Qed.
Lemma zbl_length_pos (Za Zb : R) : 0 < Za -> 0 < Zb ->
  0 < nlit 88534 (-5) *! cA0 /! (npowf Za (nlit 23 (-2)) +! npowf Zb (nlit 23 (-2))).
Proof.
  intros Ha Hb. toR. rewrite !npowf_pos by assumption.
  apply Rdiv_lt_0_compat; [apply Rmult_lt_0_compat; [apply lit_pos; reflexivity|exact cA0_pos]|].
  apply Rplus_lt_0_compat; apply Rpower_gt0.
Qed.
Lemma screening_length_pos Za Zb ip : screened ip -> 0 < Za -> 0 < Zb -> 0 < screening_length Za Zb ip.
Proof.
  destruct ip; cbn [screened]; intros H Ha Hb; try destruct H; cbn [screening_length]; cbv zeta;
    first [apply lindhard_length_pos; assumption|apply zbl_length_pos; assumption].
Qed.

(** ** powers *)
Lemma npowf_nat (x : R) n : forall z, Z.of_nat n = z -> 0 < x -> npowf x (IZR z) = x ^ n.
Proof. intros z <- H. rewrite npowf_pos by exact H. rewrite <- INR_IZR_INZ. apply Rpower_pow. exact H. Qed.
Lemma npowf_half (x : R) n : forall z, Z.of_nat n = z -> 0 < x -> npowf x (IZR z / 2) = sqrt x ^ n.
Proof.
  intros z <- H. rewrite npowf_pos by exact H. rewrite <- INR_IZR_INZ, <- (Rpower_pow n (sqrt x)) by (apply sqrt_lt_R0; exact H).
  rewrite <- (Rpower_sqrt x H), Rpower_mult. f_equal. field.
Qed.
Lemma powerRZ_nat (x : R) n : powerRZ x (Z.of_nat n) = x ^ n.
Proof. symmetry. apply pow_powerRZ. Qed.
Lemma zero_iff (K d t : R) : K <> 0 -> d = K * t -> (d = 0 <-> t = 0).
Proof.
  intros HK ->. split; [intros H; destruct (Rmult_integral _ _ H); [contradiction|assumption]|intros ->; ring].
Qed.

(** ** reduced energy *)
Lemma reduced_energy_R (a Za Zb E : R) : 0 < Za -> 0 < Zb ->
  cLINDHARD_REDUCED_ENERGY_PREFACTOR *! a /! Za /! Zb *! E = a * E / (Za * Zb * cQ * cQ / 4 / PI / cEPS0).
Proof.
  intros Ha Hb. pose proof cQ_pos. pose proof cEPS0_pos. pose proof PI_RGT_0.
  unfold cLINDHARD_REDUCED_ENERGY_PREFACTOR. toR. field. repeat split; lra.
Qed.

(** each function is the turning point function times a nonzero factor *)
Definition tp (v E p r : R) : R := 1 - v / E - (p / r) * (p / r).
Lemma screened_potential_R r a Za Zb ip : screened ip ->
  interaction_potential r a Za Zb ip = Ok (Za * Zb * cQ * cQ / 4 / PI / cEPS0 / r * expsum (screening_terms ip) (r / a)).
Proof.
  intros Hs. transitivity (screened_coulomb r a Za Zb ip); [destruct ip; cbn in Hs; try destruct Hs; reflexivity|].
  unfold screened_coulomb. toR. rewrite phi_R by exact Hs. cbn [bind]. reflexivity.
Qed.
Lemma doca_screened_R r a' Za Zb E p ip : screened ip ->
  let a := screening_length Za Zb ip in
  let e := cLINDHARD_REDUCED_ENERGY_PREFACTOR *! a /! Za /! Zb *! E in
  distance_of_closest_approach_function r a' Za Zb E p ip =
    Ok (r / a - expsum (screening_terms ip) (r / a) / e - (p / a) * (p / a) / (r / a)) /\
  distance_of_closest_approach_function_singularity_free r a' Za Zb E p ip =
    Ok ((r / a) * (r / a) - (r / a) * expsum (screening_terms ip) (r / a) / e - (p / a) * (p / a)) /\
  diff_distance_of_closest_approach_function r a' Za Zb E p ip =
    Ok ((p / a) * (p / a) / (r / a) / (r / a) - dexpsum (screening_terms ip) (r / a) / e + 1) /\
  diff_distance_of_closest_approach_function_singularity_free r a' Za Zb E p ip =
    Ok (2 * (r / a) - expsum (screening_terms ip) (r / a) / e).
Proof.
  intros Hs a e.
  assert (H1 : forall x b, doca_function x b e ip = Ok (x - expsum (screening_terms ip) x / e - b * b / x))
    by (intros; unfold doca_function; rewrite phi_R by exact Hs; reflexivity).
  assert (H2 : forall x b, doca_function_transformed x b e ip = Ok (x * x - x * expsum (screening_terms ip) x / e - b * b))
    by (intros; unfold doca_function_transformed; rewrite phi_R by exact Hs; reflexivity).
  assert (H3 : forall x b, diff_doca_function x b e ip = Ok (b * b / x / x - dexpsum (screening_terms ip) x / e + 1))
    by (intros; unfold diff_doca_function; rewrite dphi_R by exact Hs; cbn [bind]; rewrite nZ_R; reflexivity).
  assert (H4 : forall x b, diff_doca_function_transformed x b e ip = Ok (2 * x - expsum (screening_terms ip) x / e))
    by (intros; unfold diff_doca_function_transformed; rewrite phi_R by exact Hs; cbn [bind]; rewrite nZ_R; reflexivity).
  rewrite <- H1, <- H2, <- H3, <- (H4 _ (p / a)).
  destruct ip; cbn in Hs; try destruct Hs; repeat split; reflexivity.
Qed.


Definition has_doca_function (ip : InteractionPotential R) : Prop :=
  match ip with COULOMB _ _ | FOUR_EIGHT _ _ => False | _ => True end.

Lemma doca_factor r Za Zb E p ip : has_doca_function ip -> well_formed_potential ip ->
  0 < Za -> 0 < Zb -> 0 < E -> 0 < r ->
  let a := screening_length Za Zb ip in
  exists v d d' K K', interaction_potential r a Za Zb ip = Ok v /\
    distance_of_closest_approach_function r a Za Zb E p ip = Ok d /\
    distance_of_closest_approach_function_singularity_free r a Za Zb E p ip = Ok d' /\
    0 < K /\ 0 < K' /\ d = K * tp v E p r /\ d' = K' * tp v E p r.
Proof.
  intros Hd Hw Ha Hb HE Hr a.
  assert (Hscr : screened ip -> exists v d d' K K', interaction_potential r a Za Zb ip = Ok v /\
    distance_of_closest_approach_function r a Za Zb E p ip = Ok d /\
    distance_of_closest_approach_function_singularity_free r a Za Zb E p ip = Ok d' /\
    0 < K /\ 0 < K' /\ d = K * tp v E p r /\ d' = K' * tp v E p r).
  { intros Hs. destruct (doca_screened_R r a Za Zb E p ip Hs) as (H1 & H2 & _). fold a in H1, H2.
    pose proof (screening_length_pos Za Zb ip Hs Ha Hb) as Hap. fold a in Hap.
    rewrite (screened_potential_R r a Za Zb ip Hs), H1, H2.
    do 3 eexists. exists (r / a), (r / a * (r / a)).
    assert (Hra : 0 < r / a) by (apply Rdiv_lt_0_compat; assumption).
    do 3 (split; [reflexivity|]). split; [exact Hra|]. split; [apply Rmult_lt_0_compat; exact Hra|].
    rewrite (reduced_energy_R a Za Zb E Ha Hb). unfold tp.
    pose proof cQ_pos. pose proof cEPS0_pos. pose proof PI_RGT_0.
    set (f := expsum _ _). clearbody f a. split; field; repeat split; lra. }
  assert (Hsame : forall v d K, 0 < K -> d = K * tp v E p r ->
    interaction_potential r a Za Zb ip = Ok v ->
    distance_of_closest_approach_function r a Za Zb E p ip = Ok d ->
    distance_of_closest_approach_function_singularity_free r a Za Zb E p ip = Ok d ->
    exists v d d' K K', interaction_potential r a Za Zb ip = Ok v /\
    distance_of_closest_approach_function r a Za Zb E p ip = Ok d /\
    distance_of_closest_approach_function_singularity_free r a Za Zb E p ip = Ok d' /\
    0 < K /\ 0 < K' /\ d = K * tp v E p r /\ d' = K' * tp v E p r).
  { intros v d K HK E1 E2 E3 E4. exists v, d, d, K, K. auto 8. }
  destruct ip; try (apply Hscr; exact I); try (destruct Hd; fail); cbn in Hw.
  - (* LJ 12-6 *)
    assert (Hrs : 0 < r / sigma) by (apply Rdiv_lt_0_compat; assumption).
    assert (Hsr : 0 < sigma / r) by (apply Rdiv_lt_0_compat; assumption).
    eapply (Hsame _ _ ((r / sigma) ^ 12)); [apply pow_lt; exact Hrs| |reflexivity|reflexivity|reflexivity].
    unfold doca_lennard_jones, lennard_jones, tp. toR.
    rewrite (npowf_nat (r / sigma) 12 12 eq_refl), (npowf_nat (r / sigma) 6 6 eq_refl), (npowf_nat r 10 10 eq_refl), (npowf_nat sigma 12 12 eq_refl),
      (npowf_nat (sigma / r) 12 12 eq_refl), (npowf_nat (sigma / r) 6 6 eq_refl) by assumption. field. lra.
  - (* LJ 6.5-6 *)
    assert (Hrs : 0 < r / sigma) by (apply Rdiv_lt_0_compat; assumption).
    assert (Hsr : 0 < sigma / r) by (apply Rdiv_lt_0_compat; assumption).
    pose proof (sqrt_lt_R0 _ Hrs) as Hs.
    eapply (Hsame _ _ (sqrt (r / sigma) ^ 13)); [apply pow_lt; exact Hs| |reflexivity|reflexivity|reflexivity].
    unfold doca_lennard_jones_65_6, lennard_jones_65_6, tp. toR. rewrite !nlit_neg. change (10 ^ 1)%Z with 10%Z.
    replace (65 / 10) with (13 / 2) by lra. replace (45 / 10) with (9 / 2) by lra. replace (5 / 10) with (1 / 2) by lra.
    rewrite (npowf_half (r / sigma) 13 13 eq_refl), (npowf_half (r / sigma) 1 1 eq_refl), (npowf_half (r / sigma) 9 9 eq_refl),
      (npowf_half (sigma / r) 13 13 eq_refl), (npowf_nat (sigma / r) 6 6 eq_refl) by assumption.
    set (s := sqrt (r / sigma)) in *.
    assert (Es : s * s = r / sigma) by (apply sqrt_sqrt; lra).
    assert (E1 : sqrt (sigma / r) = / s).
    { replace (sigma / r) with (/ (r / sigma)) by (field; lra). unfold s. apply sqrt_inv. }
    rewrite E1. assert (E2 : sigma / r = / (s * s)) by (rewrite Es; field; lra). rewrite E2.
    assert (Er : r = s * s * sigma) by (rewrite Es; field; lra). rewrite Er. clearbody s. field. repeat split; lra.
  - (* Morse *)
    assert (Hra : r * alpha <> 0) by (apply Rmult_integral_contrapositive; split; lra).
    eapply (Hsame _ _ ((r * alpha) * (r * alpha))); [pose proof (Rsqr_pos_lt _ Hra) as Hx; exact Hx| |reflexivity|reflexivity|reflexivity].
    unfold doca_morse, morse, tp. toR. set (e1 := exp _). set (e2 := exp _). clearbody e1 e2. field. repeat split; lra.
  - (* WW *)
    pose proof cANGSTROM_pos as HA. cbn [interaction_potential distance_of_closest_approach_function distance_of_closest_approach_function_singularity_free nis_nan NumR].
    unfold doca_tungsten_tungsten_cubic_spline. cbn [nis_nan NumR].
    destruct (nle (r /! cANGSTROM) ww_x1) eqn:Hx.
    + pose proof (screening_length_pos 74 74 ZBL I ltac:(lra) ltac:(lra)) as Hzp.
      rewrite !nZ_R. set (az := screening_length 74 74 ZBL) in *.
      unfold doca_function_transformed. rewrite (phi_R _ ZBL I). cbn [bind].
      unfold tungsten_tungsten_cubic_spline. rewrite Hx, !nZ_R. fold az.
      change (zbl (r /! az)) with (match phi (r / az) ZBL with Ok z => z | _ => 0 end). rewrite (phi_R _ ZBL I).
      do 3 eexists. exists (r / az * (r / az)), (r / az * (r / az)). do 3 (split; [reflexivity|]).
      assert (0 < r / az * (r / az)) by (apply Rmult_lt_0_compat; apply Rdiv_lt_0_compat; assumption).
      split; [assumption|]. split; [assumption|].
      rewrite (reduced_energy_R az 74 74 E ltac:(lra) ltac:(lra)). unfold tp. toR.
      pose proof cQ_pos. pose proof cEPS0_pos. pose proof PI_RGT_0.
      set (f := expsum _ _). clearbody f az. split; field; repeat split; lra.
    + do 3 eexists. exists (r / cANGSTROM * (r / cANGSTROM)), (r / cANGSTROM * (r / cANGSTROM)). do 3 (split; [reflexivity|]).
      assert (0 < r / cANGSTROM * (r / cANGSTROM)) by (apply Rmult_lt_0_compat; apply Rdiv_lt_0_compat; assumption).
      split; [assumption|]. split; [assumption|]. set (v := tungsten_tungsten_cubic_spline r). clearbody v.
      set (A := (cANGSTROM : R)) in *. clearbody A. unfold tp. toR. split; field; repeat split; lra.
  - (* KRC-Morse *)
    assert (Hra : r * alpha <> 0) by (apply Rmult_integral_contrapositive; split; lra).
    eapply (Hsame _ _ ((r * alpha) * (r * alpha))); [pose proof (Rsqr_pos_lt _ Hra) as Hx; exact Hx| |reflexivity|reflexivity|reflexivity].
    unfold doca_krc_morse, tp. set (v := krc_morse _ _ _ _ _ _ _ _ _). clearbody v. toR. field. repeat split; lra.
Qed.

(** ** inverse polynomial potentials *)
Lemma npowf_quarter (x : R) : 0 < x -> npowf x (1 / 4) ^ 4 = x.
Proof.
  intros H. rewrite npowf_pos by exact H. rewrite <- Rpower_pow by apply Rpower_gt0. rewrite Rpower_mult.
  replace (1 / 4 * INR 4) with 1 by (cbn [INR]; field). apply Rpower_1. exact H.
Qed.
Lemma npowf_eighth (x : R) : 0 < x -> npowf x (1 / 8) ^ 8 = x.
Proof.
  intros H. rewrite npowf_pos by exact H. rewrite <- Rpower_pow by apply Rpower_gt0. rewrite Rpower_mult.
  replace (1 / 8 * INR 8) with 1 by (cbn [INR]; field). apply Rpower_1. exact H.
Qed.
Lemma polynomial_factor a Za Zb E p ip t : inverse_polynomial ip -> well_formed_potential ip -> 0 < E -> 0 < t ->
  exists cs r v K, polynomial_coefficients E p ip = Ok cs /\ inverse_transform t ip = Ok r /\
    interaction_potential r a Za Zb ip = Ok v /\ 0 < r /\ 0 < K /\ poly_eval cs t = K * tp v E p r.
Proof.
  intros Hi Hw HE Ht. destruct ip; cbn in Hi; try (destruct Hi; fail); cbn in Hw.
  - cbn [polynomial_coefficients inverse_transform]. set (s := sqrt t).
    pose proof (sqrt_lt_R0 _ Ht) as Hs. fold s in Hs.
    assert (Es : t = s * s) by (symmetry; apply sqrt_sqrt; lra).
    do 4 eexists. split; [reflexivity|]. split; [reflexivity|]. split; [reflexivity|].
    change (nsqrt t) with s. split; [exact Hs|].
    assert (Hsr : 0 < sigma / s) by (apply Rdiv_lt_0_compat; assumption).
    split; [exact (pow_lt _ 12 Hs)|]. unfold lennard_jones, tp, poly_eval. cbn [fold_left]. toR.
    rewrite (npowf_nat (sigma / s) 12 12 eq_refl), (npowf_nat (sigma / s) 6 6 eq_refl), (npowf_nat sigma 6 6 eq_refl), (npowf_nat sigma 12 12 eq_refl) by assumption.
    rewrite Es. pose proof cEV_pos. set (ev := (cEV : R)) in *. clearbody s ev. field. repeat split; lra.
  - cbn [polynomial_coefficients inverse_transform].
    do 4 eexists. split; [reflexivity|]. split; [reflexivity|]. split; [reflexivity|]. toR.
    assert (Hr : 0 < t * t) by (apply Rmult_lt_0_compat; assumption).
    split; [exact Hr|].
    assert (Hsr : 0 < sigma / (t * t)) by (apply Rdiv_lt_0_compat; assumption).
    split; [exact (pow_lt _ 13 Ht)|]. unfold lennard_jones_65_6, tp, poly_eval. cbn [fold_left]. toR.
    rewrite !nlit_neg. change (10 ^ 1)%Z with 10%Z. replace (65 / 10) with (13 / 2) by lra.
    rewrite (npowf_half (sigma / (t * t)) 13 13 eq_refl), (npowf_nat (sigma / (t * t)) 6 6 eq_refl), (npowf_nat sigma 6 6 eq_refl), (npowf_half sigma 13 13 eq_refl) by assumption.
    assert (E1 : sqrt (sigma / (t * t)) = sqrt sigma / t).
    { rewrite sqrt_div_alt by exact Hr. rewrite sqrt_square by lra. reflexivity. }
    rewrite E1. pose proof (sqrt_lt_R0 _ Hw). assert (Eg : sigma = sqrt sigma * sqrt sigma) by (symmetry; apply sqrt_sqrt; lra).
    set (g := sqrt sigma) in *. rewrite Eg. clearbody g. pose proof cEV_pos. set (ev := (cEV : R)) in *. clearbody ev. field. repeat split; lra.
  - destruct Hw as (Hal & Hbe). cbn [polynomial_coefficients inverse_transform]. set (s := sqrt t).
    pose proof (sqrt_lt_R0 _ Ht) as Hs. fold s in Hs. pose proof cANGSTROM_pos as HA. set (A := (cANGSTROM : R)) in *.
    assert (Es : t = s * s) by (symmetry; apply sqrt_sqrt; lra).
    do 4 eexists. split; [reflexivity|]. split; [reflexivity|]. split; [reflexivity|].
    change (nsqrt t) with s. toR. assert (Hr : 0 < s * A) by (apply Rmult_lt_0_compat; assumption). split; [exact Hr|].
    split; [exact (pow_lt _ 8 Hs)|]. unfold four_eight, tp, poly_eval. cbn [fold_left]. toR.
    change 4%Z with (Z.of_nat 4). change 8%Z with (Z.of_nat 8). rewrite !powerRZ_nat. change (IZR (Z.of_nat 4)) with 4. change (IZR (Z.of_nat 8)) with 8.
    pose proof (npowf_quarter _ Hal) as Eq. pose proof (npowf_eighth _ Hbe) as Ee.
    set (q := npowf alpha (1 / 4)) in *. set (e := npowf beta (1 / 8)) in *.
    assert (E4 : (q / (s * A)) ^ 4 = alpha / (s * A) ^ 4) by (rewrite <- Eq; field; split; lra).
    assert (E8 : (e / (s * A)) ^ 8 = beta / (s * A) ^ 8) by (rewrite <- Ee; field; split; lra).
    rewrite E4, E8, Es. clearbody s A. field. repeat split; lra.
Qed.

(** ** Coulomb closed form *)
Lemma coulomb_doca_R Z1 Z2 E p : 0 < E ->
  coulomb_doca Z1 Z2 E p =
  let h := Z1 * Z2 * cQ * cQ / 4 / PI / cEPS0 / E / 2 in h + sqrt (p * p + h * h).
Proof.
  intros HE. cbv zeta. unfold coulomb_doca. toR. pose proof cQ_pos. pose proof cEPS0_pos. pose proof PI_RGT_0.
  set (q := (cQ : R)) in *. set (e := (cEPS0 : R)) in *. clearbody q e. set (k := Z1 * Z2 * q * q).
  assert (HD : 0 < 8 * E * PI * e) by (apply Rmult_lt_0_compat; [apply Rmult_lt_0_compat; [apply Rmult_lt_0_compat|]|]; lra).
  assert (ES : sqrt (64 * (E * PI * p * e * (E * PI * p * e)) + k * k) / E / PI / e / 8
          = sqrt (p * p + (k / 4 / PI / e / E / 2) * (k / 4 / PI / e / E / 2))).
  { replace (p * p + (k / 4 / PI / e / E / 2) * (k / 4 / PI / e / E / 2))
      with ((64 * (E * PI * p * e * (E * PI * p * e)) + k * k) / ((8 * E * PI * e) * (8 * E * PI * e)))
      by (field; repeat split; lra).
    rewrite sqrt_div_alt by (apply Rmult_lt_0_compat; exact HD). rewrite sqrt_square by lra.
    field. repeat split; lra. }
  rewrite ES. f_equal. field. repeat split; lra.
Qed.
Lemma coulomb_unique Z1 Z2 E p : 0 < Z1 -> 0 < Z2 -> 0 < E ->
  unique_turning_point (fun r => coulomb r Z1 Z2) E p (coulomb_doca Z1 Z2 E p).
Proof.
  intros H1 H2 HE. rewrite coulomb_doca_R by exact HE. cbv zeta.
  pose proof cQ_pos. pose proof cEPS0_pos. pose proof PI_RGT_0.
  assert (EV : forall r, r <> 0 -> 1 - coulomb r Z1 Z2 / E - p / r * (p / r) =
     (r * r - 2 * (Z1 * Z2 * cQ * cQ / 4 / PI / cEPS0 / E / 2) * r - p * p) / (r * r)).
  { intros r Hr. unfold coulomb. toR. field. repeat split; lra. }
  set (h := Z1 * Z2 * cQ * cQ / 4 / PI / cEPS0 / E / 2) in *.
  assert (Hh : 0 < h) by (unfold h; repeat apply Rdiv_lt_0_compat; try lra; repeat apply Rmult_lt_0_compat; lra).
  clearbody h. pose proof (Rle_0_sqr p) as Hp. unfold Rsqr in Hp.
  set (s := sqrt (p * p + h * h)).
  assert (Hs : s * s = p * p + h * h) by (apply sqrt_sqrt; pose proof (Rmult_lt_0_compat _ _ Hh Hh); lra).
  assert (Hs0 : 0 <= s) by apply sqrt_pos. clearbody s.
  assert (Hsh : h <= s). { destruct (Rle_lt_dec h s); [assumption|]. pose proof (Rmult_le_0_lt_compat s h s h Hs0 Hs0 ltac:(lra) ltac:(lra)). lra. }
  split; [lra|]. split.
  - unfold turning_point. rewrite EV by lra. replace ((h + s) * (h + s) - 2 * h * (h + s) - p * p) with (s * s - h * h - p * p) by ring.
    rewrite Hs. unfold Rdiv. ring.
  - intros r' Hr' Ht. unfold turning_point in Ht. rewrite EV in Ht by lra.
    assert (Hq : r' * r' - 2 * h * r' - p * p = 0).
    { apply Rmult_eq_reg_r with (/ (r' * r')); [unfold Rdiv in Ht; rewrite Ht; ring|]. apply Rinv_neq_0_compat.
      apply Rmult_integral_contrapositive. split; lra. }
    assert (Hf : (r' - (h + s)) * (r' - (h - s)) = 0).
    { replace ((r' - (h + s)) * (r' - (h - s))) with (r' * r' - 2 * h * r' - (s * s - h * h)) by ring. rewrite Hs. lra. }
    destruct (Rmult_integral _ _ Hf); lra.
Qed.

(** ** outermost zero of the attractive potentials *)
Lemma pow_gt1 x n : 1 < x -> 1 < x ^ S n.
Proof. intros H. apply Rlt_pow_R1; [exact H|lia]. Qed.
Lemma pow_lt1 x n : 0 < x < 1 -> x ^ S n < 1.
Proof.
  intros H. induction n as [|n IH]; [cbn; lra|]. change (x * x ^ S n < 1).
  pose proof (pow_lt x (S n) ltac:(lra)). pose proof (Rmult_lt_compat_r (x ^ S n) x 1 ltac:(lra) ltac:(lra)). lra.
Qed.
Lemma sigma_over_r sigma r : 0 < sigma -> 0 < r -> (sigma / r < 1 <-> sigma < r) /\ (1 < sigma / r <-> r < sigma).
Proof.
  intros Hs Hr. assert (E : sigma = sigma / r * r) by (field; lra). split; split; intros H.
  - rewrite E. rewrite <- (Rmult_1_l r) at 3. apply Rmult_lt_compat_r; lra.
  - apply Rmult_lt_reg_r with r; [lra|]. rewrite <- E. lra.
  - rewrite E. rewrite <- (Rmult_1_l r) at 1. apply Rmult_lt_compat_r; lra.
  - apply Rmult_lt_reg_r with r; [lra|]. rewrite <- E. lra.
Qed.
Lemma lj_sign sigma epsilon : 0 < sigma -> 0 < epsilon -> sign_change_at (fun r => lennard_jones r sigma epsilon) sigma.
Proof.
  intros Hs He.
  assert (E : forall r, 0 < r -> lennard_jones r sigma epsilon = 4 * epsilon * (sigma / r) ^ 6 * ((sigma / r) ^ 6 - 1)).
  { intros r Hr. assert (0 < sigma / r) by (apply Rdiv_lt_0_compat; assumption). unfold lennard_jones. toR.
    rewrite (npowf_nat (sigma / r) 12 12 eq_refl), (npowf_nat (sigma / r) 6 6 eq_refl) by assumption. ring. }
  assert (Hc : forall r, 0 < r -> 0 < 4 * epsilon * (sigma / r) ^ 6).
  { intros r Hr. apply Rmult_lt_0_compat; [lra|]. apply pow_lt. apply Rdiv_lt_0_compat; assumption. }
  split; [|split].
  - rewrite E by exact Hs. replace (sigma / sigma) with 1 by (field; lra). ring.
  - intros r Hr Hlt. rewrite E by exact Hr. apply Rmult_lt_0_compat; [apply Hc; exact Hr|].
    apply (proj2 (sigma_over_r sigma r Hs Hr)) in Hlt. pose proof (pow_gt1 _ 5 Hlt). lra.
  - intros r Hlt. assert (Hr : 0 < r) by lra. rewrite E by exact Hr.
    apply (proj1 (sigma_over_r sigma r Hs Hr)) in Hlt. assert (0 < sigma / r) by (apply Rdiv_lt_0_compat; assumption).
    pose proof (pow_lt1 _ 5 (conj H Hlt)).
    pose proof (Rmult_lt_0_compat _ (1 - (sigma / r) ^ 6) (Hc r Hr) ltac:(lra)). lra.
Qed.
Lemma lj65_sign sigma epsilon : 0 < sigma -> 0 < epsilon -> sign_change_at (fun r => lennard_jones_65_6 r sigma epsilon) sigma.
Proof.
  intros Hs He.
  assert (E : forall r, 0 < r -> lennard_jones_65_6 r sigma epsilon = 4 * epsilon * (sigma / r) ^ 6 * (sqrt (sigma / r) - 1)).
  { intros r Hr. assert (Hq : 0 < sigma / r) by (apply Rdiv_lt_0_compat; assumption). unfold lennard_jones_65_6. toR.
    rewrite nlit_neg. change (10 ^ 1)%Z with 10%Z. replace (65 / 10) with (13 / 2) by lra.
    rewrite (npowf_half (sigma / r) 13 13 eq_refl), (npowf_nat (sigma / r) 6 6 eq_refl) by assumption.
    assert (Es : sqrt (sigma / r) * sqrt (sigma / r) = sigma / r) by (apply sqrt_sqrt; lra).
    set (s := sqrt (sigma / r)) in *. rewrite <- Es. ring. }
  assert (Hc : forall r, 0 < r -> 0 < 4 * epsilon * (sigma / r) ^ 6).
  { intros r Hr. apply Rmult_lt_0_compat; [lra|]. apply pow_lt. apply Rdiv_lt_0_compat; assumption. }
  split; [|split].
  - rewrite E by exact Hs. replace (sigma / sigma) with 1 by (field; lra). rewrite sqrt_1. ring.
  - intros r Hr Hlt. rewrite E by exact Hr. apply Rmult_lt_0_compat; [apply Hc; exact Hr|].
    apply (proj2 (sigma_over_r sigma r Hs Hr)) in Hlt.
    assert (1 < sqrt (sigma / r)) by (replace 1 with (sqrt 1) at 1 by apply sqrt_1; apply sqrt_lt_1_alt; lra). lra.
  - intros r Hlt. assert (Hr : 0 < r) by lra. rewrite E by exact Hr.
    apply (proj1 (sigma_over_r sigma r Hs Hr)) in Hlt. assert (0 < sigma / r) by (apply Rdiv_lt_0_compat; assumption).
    assert (sqrt (sigma / r) < 1) by (replace 1 with (sqrt 1) by apply sqrt_1; apply sqrt_lt_1_alt; lra).
    pose proof (Rmult_lt_0_compat _ (1 - sqrt (sigma / r)) (Hc r Hr) ltac:(lra)). lra.
Qed.
Lemma morse_sign D alpha r0 : 0 < D -> 0 < alpha -> sign_change_at (fun r => morse r D alpha r0) (r0 - ln 2 / alpha).
Proof.
  intros HD Ha.
  assert (E : forall r, morse r D alpha r0 = D * exp (- alpha * (r - r0)) * (exp (- alpha * (r - r0)) - 2)).
  { intros r. unfold morse. toR. replace (-2 * alpha * (r - r0)) with (- alpha * (r - r0) + - alpha * (r - r0)) by ring.
    rewrite exp_plus. ring. }
  assert (E2 : exp (- alpha * (r0 - ln 2 / alpha - r0)) = 2).
  { replace (- alpha * (r0 - ln 2 / alpha - r0)) with (ln 2) by (field; lra). apply exp_ln. lra. }
  assert (Hc : forall r, 0 < D * exp (- alpha * (r - r0))) by (intros r; apply Rmult_lt_0_compat; [exact HD|apply exp_pos]).
  split; [|split].
  - rewrite E, E2. ring.
  - intros r _ Hlt. rewrite E. apply Rmult_lt_0_compat; [apply Hc|].
    assert (exp (- alpha * (r0 - ln 2 / alpha - r0)) < exp (- alpha * (r - r0))); [|lra].
    apply exp_increasing. pose proof (Rmult_lt_compat_l alpha _ _ Ha Hlt). lra.
  - intros r Hlt. rewrite E.
    assert (exp (- alpha * (r - r0)) < exp (- alpha * (r0 - ln 2 / alpha - r0))).
    { apply exp_increasing. pose proof (Rmult_lt_compat_l alpha _ _ Ha Hlt). lra. }
    pose proof (Rmult_lt_0_compat _ (2 - exp (- alpha * (r - r0))) (Hc r) ltac:(lra)). lra.
Qed.
