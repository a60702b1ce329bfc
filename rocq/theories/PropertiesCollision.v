(** * PropertiesCollision.v - C40..C48, C77..C79 *)
From Coquelicot Require Import Coquelicot.
From Coq Require Import ZArith List Bool Lia Reals Lra Floats.SpecFloat.
From Verif Require Import Num ModelTypes ModelConsts ModelInteractions ModelBca ProofsBase NumR NumSF Spec SpecR SpecCollision ProofsInteractions ProofsNewton ProofsCollision.
Import ListNotations.
Open Scope R_scope.

Lemma potential_unique a Za Zb ip V : screened ip -> is_potential a Za Zb ip V ->
  forall r, V r = Za * Zb * cQ * cQ / 4 / PI / cEPS0 / r * expsum (screening_terms ip) (r / a).
Proof. intros Hs HV r. specialize (HV r). rewrite screened_potential_R in HV by exact Hs. congruence. Qed.
Lemma turning_ext V W E p r : (forall r, V r = W r) -> turning_point V E p r <-> turning_point W E p r.
Proof. intros H. unfold turning_point. rewrite H. reflexivity. Qed.
Lemma unique_ext V W E p r : (forall r, V r = W r) -> unique_turning_point V E p r <-> unique_turning_point W E p r.
Proof.
  intros H. unfold unique_turning_point. split; intros (H1 & H2 & H3); (split; [exact H1|]); (split; [apply (turning_ext V W E p r H); exact H2|]);
    intros r' Hr Ht; apply H3; try assumption; apply (turning_ext V W E p r' H); exact Ht.
Qed.

(** ** C40 *)
Theorem C40_screening_functions :
  forall ip, screened ip -> exists f df,
    (forall x, phi x ip = Ok (f x)) /\ (forall x, dphi x ip = Ok (df x)) /\
    (forall x, derivable_pt_lim f x (df x)) /\ (forall x, 0 < f x) /\ (forall x y, x < y -> f y < f x) /\
    (ip <> LENZ_JENSEN -> f 0 = 1).
Proof.
  intros ip Hs. exists (expsum (screening_terms ip)), (dexpsum (screening_terms ip)). pose proof (screening_terms_pos ip Hs) as Hp.
  split; [intros; apply phi_R; exact Hs|]. split; [intros; apply dphi_R; exact Hs|].
  split; [intros; apply expsum_deriv|]. split; [intros; apply expsum_pos; exact Hp|]. split; [intros; apply expsum_decr; assumption|].
  intros Hl. rewrite expsum_0. unfold Rsum. destruct ip; cbn [screened] in Hs; try (destruct Hs; fail); try congruence; cbn [screening_terms map fold_right fst]; lra.
Qed.
Print Assumptions C40_screening_functions.
(** the coefficients of the Lenz-Jensen function do not add up to one *)
Theorem C40_lenz_jensen_refuted : phi (nZ 0) (LENZ_JENSEN : InteractionPotential R) = Ok (100008 / 100000).
Proof. rewrite nZ_R, phi_R by exact I. rewrite expsum_0. f_equal. unfold Rsum. cbn [screening_terms map fold_right fst]. lra. Qed.
Print Assumptions C40_lenz_jensen_refuted.
Example C40_screened_exist : screened MOLIERE /\ screened KR_C /\ screened ZBL /\ screened LENZ_JENSEN /\ screened TRIDYN.
Proof. repeat split. Qed.

(** ** C41 *)
(** screened potentials, in the variable x = r/a on which Newton's method iterates *)
Theorem C41_newton_derivative_screened_partial :
  forall ip Za Zb E p x, screened ip -> 0 < Za -> 0 < Zb -> 0 < E -> x <> 0 ->
    let a := screening_length Za Zb ip in
    exists f d, (forall x, distance_of_closest_approach_function (x * a) a Za Zb E p ip = Ok (f x)) /\
      diff_distance_of_closest_approach_function (x * a) a Za Zb E p ip = Ok d /\ derivable_pt_lim f x d.
Proof.
  intros ip Za Zb E p x Hs Ha Hb HE Hx a. pose proof (screening_length_pos Za Zb ip Hs Ha Hb) as Hap. fold a in Hap.
  set (e := cLINDHARD_REDUCED_ENERGY_PREFACTOR *! a /! Za /! Zb *! E).
  assert (He : e <> 0). { unfold e. rewrite reduced_energy_R by assumption. pose proof (reduced_energy_pos a Za Zb E Hap Ha Hb HE). unfold reduced_energy in *. lra. }
  exists (fun x => x - expsum (screening_terms ip) x / e - p / a * (p / a) / x), (p / a * (p / a) / x / x - dexpsum (screening_terms ip) x / e + 1).
  split; [|split].
  - intros y. destruct (doca_screened_R (y * a) a Za Zb E p ip Hs) as (H & _). fold a in H. fold e in H. rewrite H. f_equal.
    replace (y * a / a) with y by (field; lra). reflexivity.
  - destruct (doca_screened_R (x * a) a Za Zb E p ip Hs) as (_ & _ & H & _). fold a in H. fold e in H. rewrite H.
    replace (x * a / a) with x by (field; lra). reflexivity.
  - apply doca_screened_deriv; assumption.
Qed.
Print Assumptions C41_newton_derivative_screened_partial.
(** the Lennard-Jones potentials, as functions of r *)
Theorem C41_lennard_jones_derivative_partial :
  forall ip Za Zb E p r, match ip with LENNARD_JONES_12_6 s _ | LENNARD_JONES_65_6 s _ => 0 < s | _ => False end -> E <> 0 -> 0 < r ->
    let a := screening_length Za Zb ip in
    exists f d, (forall r, distance_of_closest_approach_function r a Za Zb E p ip = Ok (f r)) /\
      diff_distance_of_closest_approach_function r a Za Zb E p ip = Ok d /\ derivable_pt_lim f r d /\
      (forall r, distance_of_closest_approach_function_singularity_free r a Za Zb E p ip = Ok (f r)) /\
      diff_distance_of_closest_approach_function_singularity_free r a Za Zb E p ip = Ok d.
Proof.
  intros ip Za Zb E p r Hip HE Hr a. destruct ip; try (destruct Hip; fail); eexists; eexists;
    (split; [intros; reflexivity|]); (split; [reflexivity|]); (split; [|split; intros; reflexivity]).
  - apply lj_deriv; assumption.
  - apply lj65_deriv; assumption.
Qed.
Print Assumptions C41_lennard_jones_derivative_partial.
(** ... so in Newton's variable the derivative handed over is too large by 1/a *)
Theorem C41_newton_variable_lennard_jones_refuted :
  forall sigma epsilon Za Zb E p x, 0 < sigma -> E <> 0 -> 0 < x -> 1 <= Za -> 1 <= Zb ->
    let ip := LENNARD_JONES_12_6 sigma epsilon in
    let a := screening_length Za Zb ip in
    forall f d, (forall x, distance_of_closest_approach_function (x * a) a Za Zb E p ip = Ok (f x)) ->
      diff_distance_of_closest_approach_function (x * a) a Za Zb E p ip = Ok d -> d <> 0 -> ~ derivable_pt_lim f x d.
Proof.
  intros sigma epsilon Za Zb E p x Hs HE Hx HZa HZb ip a f d Hf Hd Hd0 Hdf.
  pose proof (screening_length_lj_bound Za Zb sigma epsilon HZa HZb) as Hap. fold ip in Hap. fold a in Hap.
  assert (Hxa : 0 < x * a) by (apply Rmult_lt_0_compat; lra).
  pose proof (lj_deriv p E sigma epsilon (x * a) Hs HE Hxa) as HD.
  assert (Ed : d = diff_doca_lennard_jones (x * a) p E sigma epsilon) by (unfold ip in Hd; cbn [diff_distance_of_closest_approach_function] in Hd; congruence).
  assert (Ef : forall y, f y = doca_lennard_jones (y * a) p E sigma epsilon).
  { intros y. specialize (Hf y). unfold ip in Hf; cbn [distance_of_closest_approach_function] in Hf. congruence. }
  assert (Hch : derivable_pt_lim f x (d * a)).
  { apply is_derive_Reals. apply (is_derive_ext (fun y => doca_lennard_jones (y * a) p E sigma epsilon)); [intros; symmetry; apply Ef|].
    rewrite Rmult_comm. apply (is_derive_comp (fun r => doca_lennard_jones r p E sigma epsilon) (fun y => y * a) x d a).
    - apply is_derive_Reals. rewrite Ed. exact HD.
    - auto_derive; [exact I|ring]. }
  pose proof (uniqueness_limite f x d (d * a) Hdf Hch) as HE1.
  assert (a = 1). { apply Rmult_eq_reg_l with d; [lra|exact Hd0]. } lra.
Qed.
Print Assumptions C41_newton_variable_lennard_jones_refuted.
(** the Morse derivative has the relative energy replaced by e^1 *)
Theorem C41_morse_refuted :
  forall D alpha r0 Za Zb E p, 0 < D -> alpha <> 0 -> 0 < r0 -> 0 < E -> E <> exp 1 ->
    let ip := MORSE D alpha r0 in
    let a := screening_length Za Zb ip in
    forall f d, (forall r, distance_of_closest_approach_function r a Za Zb E p ip = Ok (f r)) ->
      diff_distance_of_closest_approach_function r0 a Za Zb E p ip = Ok d -> ~ derivable_pt_lim f r0 d.
Proof.
  intros D alpha r0 Za Zb E p HD Hal Hr0 HE HE1 ip a f d Hf Hd Hdf.
  pose proof (morse_deriv p E D alpha r0 r0 ltac:(lra)) as Ht.
  assert (Ef : forall y, f y = doca_morse y p E D alpha r0).
  { intros y. specialize (Hf y). unfold ip in Hf; cbn [distance_of_closest_approach_function] in Hf. congruence. }
  assert (Ed : d = diff_doca_morse r0 p E D alpha r0) by (unfold ip in Hd; cbn [diff_distance_of_closest_approach_function] in Hd; congruence).
  assert (Ht' : derivable_pt_lim f r0 (2 * alpha * alpha * r0 * (1 + D / E))).
  { apply is_derive_Reals. apply (is_derive_ext (fun y => doca_morse y p E D alpha r0)); [intros; symmetry; apply Ef|].
    apply is_derive_Reals in Ht. replace (2 * alpha * alpha * r0 * (1 + D / E)) with
     (2 * alpha * alpha * r0 - 2 * alpha * alpha * r0 * D / E * (exp (-2 * alpha * (r0 - r0)) - 2 * exp (- alpha * (r0 - r0)))
     - alpha * alpha * r0 * r0 * D / E * (-2 * alpha * exp (-2 * alpha * (r0 - r0)) + 2 * alpha * exp (- alpha * (r0 - r0)))); [exact Ht|].
    replace (r0 - r0) with 0 by ring. rewrite !Rmult_0_r, exp_0. field. lra. }
  pose proof (uniqueness_limite _ _ _ _ Hdf Ht') as HE2. rewrite Ed in HE2. unfold diff_doca_morse in HE2. toR_in HE2.
  replace (r0 - r0) with 0 in HE2 by ring. rewrite !Rmult_0_r, exp_0 in HE2.
  pose proof (exp_pos 1) as Hexp. replace (exp (0 - 1)) with (/ exp 1) in HE2 by (rewrite <- exp_Ropp; f_equal; ring).
  assert (Haa : 0 < alpha * alpha) by (apply Rsqr_pos_lt; exact Hal).
  assert (HK : 0 < 2 * (alpha * alpha) * r0 * D).
  { apply Rmult_lt_0_compat; [|exact HD]. apply Rmult_lt_0_compat; [|exact Hr0]. lra. }
  assert (Hinv : 2 * (alpha * alpha) * r0 * D * / exp 1 = 2 * (alpha * alpha) * r0 * D * / E).
  { replace (2 * alpha * alpha * r0 * (1 + D / E)) with (2 * (alpha * alpha) * r0 + 2 * (alpha * alpha) * r0 * D * / E) in HE2 by (field; lra). lra. }
  apply Rmult_eq_reg_l in Hinv; [|lra]. apply (f_equal Rinv) in Hinv. rewrite !Rinv_inv in Hinv. lra.
Qed.
Print Assumptions C41_morse_refuted.
(** the derivative of the singularity-free function omits a term, everywhere *)
Theorem C41_singularity_free_refuted :
  forall ip Za Zb E p x, screened ip -> 0 < Za -> 0 < Zb -> 0 < E -> 0 < x ->
    let a := screening_length Za Zb ip in
    forall f d, (forall x, distance_of_closest_approach_function_singularity_free (x * a) a Za Zb E p ip = Ok (f x)) ->
      diff_distance_of_closest_approach_function_singularity_free (x * a) a Za Zb E p ip = Ok d -> ~ derivable_pt_lim f x d.
Proof.
  intros ip Za Zb E p x Hs Ha Hb HE Hx a f d Hf Hd Hdf. pose proof (screening_length_pos Za Zb ip Hs Ha Hb) as Hap. fold a in Hap.
  set (e := cLINDHARD_REDUCED_ENERGY_PREFACTOR *! a /! Za /! Zb *! E).
  assert (He : 0 < e). { unfold e. rewrite reduced_energy_R by assumption. pose proof (reduced_energy_pos a Za Zb E Hap Ha Hb HE). unfold reduced_energy in *. lra. }
  assert (Ef : forall y, f y = y * y - y * expsum (screening_terms ip) y / e - p / a * (p / a)).
  { intros y. specialize (Hf y). destruct (doca_screened_R (y * a) a Za Zb E p ip Hs) as (_ & H & _). fold a in H. fold e in H. rewrite H in Hf.
    replace (y * a / a) with y in Hf by (field; lra). congruence. }
  assert (Ed : d = 2 * x - expsum (screening_terms ip) x / e).
  { destruct (doca_screened_R (x * a) a Za Zb E p ip Hs) as (_ & _ & _ & H). fold a in H. fold e in H. rewrite H in Hd.
    replace (x * a / a) with x in Hd by (field; lra). congruence. }
  pose proof (doca_transformed_deriv e (p / a) (screening_terms ip) x ltac:(lra)) as Ht.
  assert (Ht' : derivable_pt_lim f x (2 * x - expsum (screening_terms ip) x / e - x * dexpsum (screening_terms ip) x / e)).
  { apply is_derive_Reals. apply is_derive_Reals in Ht. eapply is_derive_ext; [intros; symmetry; apply Ef|exact Ht]. }
  pose proof (uniqueness_limite _ _ _ _ Hdf Ht') as HE2. rewrite Ed in HE2.
  pose proof (dexpsum_neg (screening_terms ip) x (screening_terms_pos ip Hs)) as Hn.
  assert (0 < x * - dexpsum (screening_terms ip) x / e) by (apply Rdiv_lt_0_compat; [apply Rmult_lt_0_compat; lra|exact He]).
  replace (x * - dexpsum (screening_terms ip) x / e) with (- (x * dexpsum (screening_terms ip) x / e)) in H by (field; lra). lra.
Qed.
Print Assumptions C41_singularity_free_refuted.

(** ** C42 *)
Theorem C42_roots_are_turning_points_partial :
  forall ip Za Zb E p V, ~ is_coulomb ip -> ~ is_four_eight ip -> well_formed_potential ip ->
    0 < Za -> 0 < Zb -> 0 < E ->
    let a := screening_length Za Zb ip in
    is_potential a Za Zb ip V ->
    forall r, 0 < r -> exists d d',
      distance_of_closest_approach_function r a Za Zb E p ip = Ok d /\
      distance_of_closest_approach_function_singularity_free r a Za Zb E p ip = Ok d' /\
      (d = 0 <-> turning_point V E p r) /\ (d' = 0 <-> turning_point V E p r).
Proof.
  intros ip Za Zb E p V Hc Hf Hw Ha Hb HE a HV r Hr.
  assert (Hh : has_doca_function ip) by (clear - Hc Hf; destruct ip; cbn in *; tauto).
  destruct (doca_factor r Za Zb E p ip Hh Hw Ha Hb HE Hr) as (v & d & d' & K & K' & Hv & Hd & Hd' & HK & HK' & E1 & E2).
  fold a in Hv, Hd, Hd'. exists d, d'. split; [exact Hd|]. split; [exact Hd'|].
  assert (Ev : v = V r) by (specialize (HV r); rewrite Hv in HV; congruence). subst v.
  split; [apply (zero_iff K); [lra|exact E1]|apply (zero_iff K'); [lra|exact E2]].
Qed.
Print Assumptions C42_roots_are_turning_points_partial.
(** every potential has a potential function *)
Theorem C42_potential_exists : forall a Za Zb ip, exists V, is_potential a Za Zb ip V.
Proof.
  intros a Za Zb ip. destruct ip;
  match goal with
  | |- exists V, is_potential _ _ _ ?ip V =>
    first [ exists (fun r => Za * Zb * cQ * cQ / 4 / PI / cEPS0 / r * expsum (screening_terms ip) (r / a)); intros r; apply screened_potential_R; exact I
          | eexists; intros r; reflexivity ]
  end.
Qed.
Print Assumptions C42_potential_exists.
Theorem C42_four_eight_refuted :
  exists E p r, 0 < E /\ 0 < p /\ 0 < r /\ forall Za Zb,
    let ip := FOUR_EIGHT 1 1 in
    let a := screening_length Za Zb ip in
    exists V d d', is_potential a Za Zb ip V /\ turning_point V E p r /\
      distance_of_closest_approach_function r a Za Zb E p ip = Ok d /\
      distance_of_closest_approach_function_singularity_free r a Za Zb E p ip = Ok d' /\ 200 < d /\ 200 < d'.
Proof.
  exists 15, (sqrt 257 / 8), 2. assert (Hs : 0 < sqrt 257) by (apply sqrt_lt_R0; lra). assert (Hss : sqrt 257 * sqrt 257 = 257) by (apply sqrt_sqrt; lra).
  split; [lra|]. split; [lra|]. split; [lra|]. intros Za Zb ip a.
  exists (fun r => four_eight r 1 1), (doca_four_eight 2 (sqrt 257 / 8) 15 1 1), (doca_four_eight 2 (sqrt 257 / 8) 15 1 1).
  assert (Hp1 : forall y, npowf 1 y = 1). { intros y. rewrite npowf_pos by lra. unfold Rpower. rewrite ln_1, Rmult_0_r. apply exp_0. }
  split; [intros r; reflexivity|]. split.
  - unfold turning_point, four_eight. cbv zeta. rewrite !Hp1. toR. simpl powerRZ. field_simplify. replace (sqrt 257 ^ 2) with 257 by (simpl; lra). lra.
  - split; [reflexivity|]. split; [reflexivity|].
    assert (Ed : doca_four_eight 2 (sqrt 257 / 8) 15 1 1 = 256 + 1 / 15 - sqrt 257).
    { unfold doca_four_eight. cbv zeta. rewrite !Hp1. toR. replace (2 / 1) with 2 by field. rewrite (npowf_nat 2 8 8 eq_refl), (npowf_nat 2 3 3 eq_refl), sqrt_1 by lra. simpl pow. field. }
    rewrite Ed. assert (sqrt 257 < 20). { apply Rnot_le_lt. intros Hge. pose proof (Rmult_le_compat 20 (sqrt 257) 20 (sqrt 257) ltac:(lra) ltac:(lra) Hge Hge). lra. } lra.
Qed.
Print Assumptions C42_four_eight_refuted.

(** ** C43 *)
Theorem C43_polynomial_roots_are_turning_points :
  forall ip Za Zb E p V, inverse_polynomial ip -> well_formed_potential ip -> 0 < E ->
    let a := screening_length Za Zb ip in
    is_potential a Za Zb ip V ->
    exists cs, polynomial_coefficients E p ip = Ok cs /\
    forall t, 0 < t -> exists r, inverse_transform t ip = Ok r /\ 0 < r /\ (poly_eval cs t = 0 <-> turning_point V E p r).
Proof.
  intros ip Za Zb E p V Hi Hw HE a HV.
  destruct (polynomial_factor a Za Zb E p ip 1 Hi Hw HE ltac:(lra)) as (cs & _ & _ & _ & Hcs & _).
  exists cs. split; [exact Hcs|]. intros t Ht.
  destruct (polynomial_factor a Za Zb E p ip t Hi Hw HE Ht) as (cs' & r & v & K & Hcs' & Hr & Hv & Hr0 & HK & EK).
  assert (cs' = cs) by congruence. subst cs'. exists r. split; [exact Hr|]. split; [exact Hr0|].
  assert (Ev : v = V r) by (specialize (HV r); rewrite Hv in HV; congruence). subst v. apply (zero_iff K); [lra|exact EK].
Qed.
Print Assumptions C43_polynomial_roots_are_turning_points.
(** zero, which no distance corresponds to, is never a root *)
Theorem C43_zero_is_not_a_root :
  forall ip E p cs, inverse_polynomial ip -> well_formed_potential ip ->
    match ip with LENNARD_JONES_12_6 _ e | LENNARD_JONES_65_6 _ e => e <> 0 | _ => True end -> 0 < E ->
    polynomial_coefficients E p ip = Ok cs -> poly_eval cs 0 <> 0.
Proof.
  intros ip E p cs Hi Hw He HE H. pose proof cEV_pos as Hev. pose proof cANGSTROM_pos as Han.
  destruct ip; cbn in Hi; try (destruct Hi; fail); cbn in Hw; cbn [polynomial_coefficients] in H; cbv zeta in H; apply (f_equal (fun r => match r with Ok l => l | _ => [] end)) in H;
    cbv beta iota in H; subst cs; unfold poly_eval; cbn [fold_left]; toR; rewrite !Rmult_0_r; rewrite ?Rplus_0_l.
  - assert (0 < npowf sigma (IZR 12)) by (rewrite npowf_pos by exact Hw; apply Rpower_gt0). intros Hz.
    apply He. set (w := npowf sigma (IZR 12)) in *. clearbody w. set (ev := (cEV : R)) in *. clearbody ev.
    assert (Hq : -4 * (epsilon / ev) * w / (E / ev) = epsilon * (-4 * w / E)) by (field; lra). rewrite Hq in Hz.
    apply Rmult_integral in Hz. destruct Hz as [|Hz]; [assumption|exfalso].
    assert (0 < 4 * w / E) by (apply Rdiv_lt_0_compat; lra). replace (-4 * w / E) with (- (4 * w / E)) in Hz by (field; lra). lra.
  - match goal with |- context [npowf sigma ?y] => assert (0 < npowf sigma y) by (rewrite npowf_pos by exact Hw; apply Rpower_gt0) end. intros Hz.
    apply He. match goal with H : 0 < npowf sigma ?y |- _ => set (w := npowf sigma y) in * end. 
    match type of Hz with context [npowf sigma ?y] => idtac | _ => idtac end.
    repeat match type of Hz with context [npowf sigma ?y] => generalize dependent (npowf sigma y); intros end.
    clearbody w. set (ev := (cEV : R)) in *. clearbody ev. 
    match type of Hz with ?l = 0 => match l with -4 * (epsilon / ev) * ?w' / (E / ev) => assert (Hq : l = epsilon * (-4 * w' / E)) by (field; lra) end end.
    rewrite Hq in Hz. apply Rmult_integral in Hz. destruct Hz as [|Hz]; [assumption|exfalso].
    match goal with H : 0 < ?w' |- _ => assert (0 < 4 * w' / E) by (apply Rdiv_lt_0_compat; lra); replace (-4 * w' / E) with (- (4 * w' / E)) in Hz by (field; lra); lra end.
  - intros Hz. set (an := (cANGSTROM : R)) in *. clearbody an. assert (Hp8 : 0 < powerRZ an 8) by (apply powerRZ_lt; exact Han). set (q := powerRZ an 8) in *. clearbody q.
    destruct Hw as (_ & Hbeta). assert (0 < beta / q / E) by (apply Rdiv_lt_0_compat; [apply Rdiv_lt_0_compat; assumption|exact HE]).
    replace (- (beta / q) / E) with (- (beta / q / E)) in Hz by (field; lra). lra.
Qed.
Print Assumptions C43_zero_is_not_a_root.

(** ** C44 *)
Theorem C44_coulomb_turning_point :
  forall Z1 Z2 a Za Zb E p V, 0 < Z1 -> 0 < Z2 -> 0 < E -> is_potential a Za Zb (COULOMB Z1 Z2) V ->
    unique_turning_point V E p (coulomb_doca Z1 Z2 E p).
Proof.
  intros Z1 Z2 a Za Zb E p V H1 H2 HE HV. apply (unique_ext (fun r => coulomb r Z1 Z2) V).
  - intros r. specialize (HV r). cbn [interaction_potential] in HV. congruence.
  - apply coulomb_unique; assumption.
Qed.
Print Assumptions C44_coulomb_turning_point.

(** ** C45 *)
Theorem C45_newton_reports_only_converged_iterates :
  forall F (NF : Num F) Za Zb Ma Mb E0 p ip n tol res,
    newton_rootfinder Za Zb Ma Mb E0 p ip n tol = Ok res ->
    let a := screening_length Za Zb ip in
    let E := ndiv (nmul E0 Mb) (nadd Ma Mb) in
    exists x0 xs,
      newton_path (fun r => distance_of_closest_approach_function r a Za Zb E p ip)
                  (fun r => diff_distance_of_closest_approach_function r a Za Zb E p ip) a x0 xs /\
      (length xs <= n)%nat /\
      match res with
      | Some y => exists pre u, combine (x0 :: xs) xs = pre ++ [(u, y)] /\ small_step tol (u, y) = true /\
                    Forall (fun uv => small_step tol uv = false) pre
      | None => length xs = n /\ Forall (fun uv => small_step tol uv = false) (combine (x0 :: xs) xs)
      end.
Proof. intros F NF Za Zb Ma Mb E0 p ip n tol res H a E. eexists. apply (newton_loop_report _ _ _ _ _ _ _ H). Qed.
Print Assumptions C45_newton_reports_only_converged_iterates.
(** for the screened potentials the turning point is unique, and with enough
    iterations Newton's method finds it to within the requested tolerance *)
Theorem C45_newton_converges :
  forall Za Zb Ma Mb E0 p ip n tol V,
    screened ip -> 0 < Za -> 0 < Zb -> 0 < Ma -> 0 < Mb -> 0 < E0 -> 0 <= p ->
    let a := screening_length Za Zb ip in
    let E := E0 * Mb / (Ma + Mb) in
    let e := reduced_energy a Za Zb E in
    is_potential a Za Zb ip V ->
    0 < p \/ 5 < e -> 0 < tol -> 2 / e < (INR n - 1) * sqrt tol ->
    exists x r, newton_rootfinder Za Zb Ma Mb E0 p ip n tol = Ok (Some x) /\ 0 < x /\
      unique_turning_point V E p r /\ Rabs (x * a - r) <= a * (sqrt tol * (2 + 14/10 / e)).
Proof.
  intros Za Zb Ma Mb E0 p ip n tol V Hs Ha Hb Hma Hmb HE0 Hp a E e HV Hpe Htol Hn.
  destruct (newton_converges Za Zb Ma Mb E0 p ip n tol Hs Ha Hb Hma Hmb HE0 Hp Hpe Htol Hn) as (x & r & H1 & H2 & H3 & H4).
  exists x, r. split; [exact H1|]. split; [exact H2|]. split; [|exact H4].
  eapply unique_ext; [|exact H3]. intros r'. apply potential_unique; assumption.
Qed.
Print Assumptions C45_newton_converges.

(** enough iterations always exist *)
Example C45_hypothesis_met : forall e tol, 0 < e -> 0 < tol -> exists n, 2 / e < (INR n - 1) * sqrt tol.
Proof.
  intros e tol He Ht. pose proof (sqrt_lt_R0 _ Ht) as Hs. destruct (archimed (2 / e / sqrt tol + 1)) as (Hn & _).
  assert (Hq : 0 < 2 / e / sqrt tol) by (apply Rdiv_lt_0_compat; [apply Rdiv_lt_0_compat; lra|exact Hs]).
  exists (Z.to_nat (up (2 / e / sqrt tol + 1))). assert (Hz : (0 <= up (2 / e / sqrt tol + 1))%Z) by (apply le_IZR; lra).
  rewrite INR_IZR_INZ, Z2Nat.id by exact Hz. set (k := IZR (up _)) in *. clearbody k.
  pose proof (Rmult_lt_compat_r (sqrt tol) (2 / e / sqrt tol) (k - 1) Hs ltac:(lra)) as H.
  replace (2 / e / sqrt tol * sqrt tol) with (2 / e) in H by (field; lra). exact H.
Qed.

(** ** C46 *)
Theorem C46_head_on_high_energy_partial :
  forall Za Zb Ma Mb E0 ip n tol V,
    screened ip -> 0 < Za -> 0 < Zb -> 0 < Ma -> 0 < Mb -> 0 < E0 ->
    let a := screening_length Za Zb ip in
    let E := E0 * Mb / (Ma + Mb) in
    let e := reduced_energy a Za Zb E in
    is_potential a Za Zb ip V -> 5 < e -> 0 < tol -> 2 / e < (INR n - 1) * sqrt tol ->
    exists x r, newton_rootfinder Za Zb Ma Mb E0 0 ip n tol = Ok (Some x) /\ 0 < x /\
      unique_turning_point V E 0 r /\ Rabs (x * a - r) <= a * (sqrt tol * (2 + 14/10 / e)).
Proof. intros. apply C45_newton_converges; try assumption; [lra|right; assumption]. Qed.
Print Assumptions C46_head_on_high_energy_partial.
(** in binary64, whatever the math library returns, a head-on collision at low
    reduced energy makes the root finder fail (its first step is 0/0) *)
Theorem C46_head_on_low_energy_refuted :
  forall (lm : Libm) Za Zb Ma Mb E0 ip n tol, let NF := NumSF lm in
    match ip with MOLIERE | KR_C | ZBL | LENZ_JENSEN | TRIDYN => True | _ => False end ->
    let a := screening_length Za Zb ip in
    nlt (nZ 5) (nmul (ndiv (ndiv (ndiv (nmul (nmul cLINDHARD_REDUCED_ENERGY_PREFACTOR a) Mb) (nadd Ma Mb)) Za) Zb) E0) = false ->
    newton_rootfinder Za Zb Ma Mb E0 (nZ 0) ip n tol = Ok None.
Proof. intros lm Za Zb Ma Mb E0 ip n tol NF Hip a H. exact (head_on_fails lm Za Zb Ma Mb E0 ip n tol Hip H). Qed.
Print Assumptions C46_head_on_low_energy_refuted.
(** ... at any energy below a bound that is not small: with a library whose
    powf is constantly 1 (a = 0.88534 a0 / 2 here), a 1 J hydrogen pair is above 5 and 10^-17 J below *)
Example C46_hypothesis_met : let NF := NumSF toy_libm in
  nlt (nZ 5) (nmul (ndiv (ndiv (ndiv (nmul (nmul cLINDHARD_REDUCED_ENERGY_PREFACTOR (screening_length (nZ 1) (nZ 1) (KR_C : InteractionPotential spec_float))) (nZ 1)) (nadd (nZ 1) (nZ 1))) (nZ 1)) (nZ 1)) (nlit 1 (-17))) = false.
Proof. vm_compute. reflexivity. Qed.

(** ** C47 *)
Theorem C47_crossing_point :
  forall ip a Za Zb V, match ip with
      | LENNARD_JONES_12_6 s e | LENNARD_JONES_65_6 s e => 0 < s /\ 0 < e
      | MORSE D alpha _ => 0 < D /\ 0 < alpha
      | _ => False end ->
    is_potential a Za Zb ip V -> sign_change_at V (crossing_point_doca ip).
Proof.
  intros ip a Za Zb V Hip HV.
  assert (Hext : forall W c, (forall r, W r = V r) -> sign_change_at W c -> sign_change_at V c).
  { intros W c HW (H1 & H2 & H3). split; [rewrite <- HW; exact H1|]. split; intros; rewrite <- HW; [apply H2|apply H3]; assumption. }
  destruct ip; try (destruct Hip; fail); destruct Hip as (H1 & H2).
  - apply (Hext (fun r => lennard_jones r sigma epsilon)); [intros r; specialize (HV r); cbn [interaction_potential] in HV; congruence|apply lj_sign; assumption].
  - apply (Hext (fun r => lennard_jones_65_6 r sigma epsilon)); [intros r; specialize (HV r); cbn [interaction_potential] in HV; congruence|apply lj65_sign; assumption].
  - apply (Hext (fun r => morse r D alpha r0)); [intros r; specialize (HV r); cbn [interaction_potential] in HV; congruence|].
    cbn [crossing_point_doca]. toR. replace ((alpha * r0 - ln 2) / alpha) with (r0 - ln 2 / alpha) by (field; lra). apply morse_sign; assumption.
Qed.
Print Assumptions C47_crossing_point.

(** ** C48 *)
Theorem C48_no_potential_no_deflection :
  forall n p E, (0 < n)%nat -> 0 < p -> scattering_integral_gauss_mehler p E p (fun _ => Ok 0) n = Ok 0.
Proof.
  intros n p E Hn Hp. rewrite (gauss_mehler_R p E p (fun _ => Ok 0) (fun _ => 0) n) by reflexivity.
  destruct (gm_no_potential n p Hn Hp) as (H1 & H2). rewrite H2, H1. f_equal. ring.
Qed.
Print Assumptions C48_no_potential_no_deflection.

(** ** C77 *)
Theorem C77_gauss_mehler_angle :
  forall Za Zb Ma Mb E0 p x ip n V,
    screened ip -> 0 < Za -> 0 < Zb -> 0 < Ma -> 0 < Mb -> 0 < E0 -> 0 < p -> (0 < n)%nat ->
    let a := screening_length Za Zb ip in
    let E := E0 * Mb / (Ma + Mb) in
    is_potential a Za Zb ip V -> 0 < x -> turning_point V E p (x * a) ->
    (exists theta, gauss_mehler Za Zb Ma Mb E0 p x ip n = Ok theta /\ 0 <= theta <= PI) /\
    (forall i, (1 <= i <= n)%nat -> let u := gm_node n i in
       0 < u < 1 /\ 0 < 1 - V (x * a / u) / E - (p * u / (x * a)) * (p * u / (x * a))).
Proof.
  intros Za Zb Ma Mb E0 p x ip n V Hs Ha Hb Hma Hmb HE0 Hp Hn a E HV Hx Ht.
  pose proof (screening_length_pos Za Zb ip Hs Ha Hb) as Hap. fold a in Hap.
  assert (HE : 0 < E) by (apply Rdiv_lt_0_compat; [apply Rmult_lt_0_compat; assumption|lra]).
  assert (Hr : 0 < x * a) by (apply Rmult_lt_0_compat; assumption).
  assert (Hdec : forall r, x * a < r -> V r <= V (x * a)).
  { intros r Hlt. rewrite !(potential_unique a Za Zb ip V Hs HV). destruct (screened_decreasing Za Zb a ip Hs Ha Hb Hap (x * a) r Hr Hlt). lra. }
  split.
  - unfold gauss_mehler. fold a. cbv zeta. change (E0 *! Mb /! (Ma +! Mb)) with E. change (x *! a) with (x * a).
    rewrite (gauss_mehler_R p E (x * a) _ V n) by exact HV. eexists. split; [reflexivity|]. apply gm_angle_range; assumption.
  - intros i Hi u. destruct (gm_sc n i Hi) as (Hsin & Hcos).
    assert (Eu : u = cos (gm_th n i)). { unfold u, gm_node, gm_angle, gm_th. toR. reflexivity. }
    rewrite Eu. split; [exact Hcos|]. pose proof (gm_radicand V E p (x * a) n i Hi HE Hp Hr Ht Hdec) as H. cbv zeta in H.
    assert (0 < p / (x * a) * sin (gm_th n i)) by (apply Rmult_lt_0_compat; [apply Rdiv_lt_0_compat; assumption|exact Hsin]).
    pose proof (Rmult_lt_0_compat _ _ H0 H0). lra.
Qed.
Print Assumptions C77_gauss_mehler_angle.

(** ** C78 *)
(** Lennard-Jones: the turning point lies beyond 0.9 sigma, yet Newton's method
    stops after one step and reports a point below 0.51 sigma as converged *)
Theorem C78_newton_lennard_jones_refuted :
  forall Za Zb Ma Mb E0 sigma epsilon n tol V,
    1 <= Za -> 1 <= Zb -> 0 < epsilon -> E0 * Mb / (Ma + Mb) = epsilon ->
    0 < sigma <= 1 / 1000000 -> 1 / 1000000000 <= tol -> (0 < n)%nat ->
    let ip := LENNARD_JONES_12_6 sigma epsilon in
    let a := screening_length Za Zb ip in
    let p := sigma / 2 in
    reduced_energy a Za Zb epsilon <= 5 -> is_potential a Za Zb ip V ->
    (exists x, newton_rootfinder Za Zb Ma Mb E0 p ip n tol = Ok (Some x) /\ x * a < 51 / 100 * sigma) /\
    (exists r, 0 < r /\ turning_point V epsilon p r) /\
    (forall r, 0 < r -> turning_point V epsilon p r -> 9 / 10 * sigma < r).
Proof.
  intros Za Zb Ma Mb E0 sigma epsilon n tol V Ha Hb He HE Hs Htol Hn ip a p Hr HV.
  assert (EV : forall r, lennard_jones r sigma epsilon = V r) by (intros r; specialize (HV r); unfold ip in HV; cbn [interaction_potential] in HV; congruence).
  destruct (lj_turning sigma epsilon ltac:(lra) He) as ((r & Hr1 & Ht) & Hall). split; [|split].
  - destruct n as [|n]; [lia|]. apply newton_lj_wrong; assumption.
  - exists r. split; [lra|]. apply (turning_ext (fun r => lennard_jones r sigma epsilon) V epsilon p r EV). exact Ht.
  - intros r' Hr' Ht'. apply Hall; [exact Hr'|]. apply (turning_ext (fun r => lennard_jones r sigma epsilon) V epsilon p r' EV). exact Ht'.
Qed.
Print Assumptions C78_newton_lennard_jones_refuted.

(** two hydrogen atoms (Z = 1), sigma = 1 angstrom, epsilon = 10^-19 J *)
Example C78_hypothesis_met :
  let sigma := 1 / 10000000000 in let epsilon := 1 / 10000000000000000000 in
  0 < epsilon /\ (2 * epsilon) * 1 / (1 + 1) = epsilon /\ 0 < sigma <= 1 / 1000000 /\
  reduced_energy (screening_length 1 1 (LENNARD_JONES_12_6 sigma epsilon)) 1 1 epsilon <= 5.
Proof.
  cbv zeta. split; [lra|]. split; [lra|]. split; [lra|].
  pose proof (screening_length_lj_bound 1 1 (1 / 10000000000) (1 / 10000000000000000000) ltac:(lra) ltac:(lra)) as Ha.
  set (a := screening_length _ _ _) in *. clearbody a. unfold reduced_energy, cQ, cEPS0. rewrite !nlit_neg. pose proof PI_RGT_0. pose proof PI_4 as H4.
  change (IZR (10 ^ 28)) with (IZR 10000000000000000000000000000). 
  match goal with |- a * ?ep / ?K <= 5 => assert (HK : 1 / 10000000000000000000000000000 <= K) end.
  { match goal with |- _ <= ?q / 4 / PI / ?e0 => assert (Hq : 2 / 100000000000000000000000000000000000000 <= q) by (change (10 ^ 28)%Z with 10000000000000000000000000000%Z; lra);
      assert (He : 0 < e0 <= 1 / 100000000000) by (split; [apply Rdiv_lt_0_compat; apply IZR_lt; reflexivity|match goal with |- _ / IZR ?z <= _ => let z' := eval vm_compute in z in change z with z' end; lra]); set (Q := q) in *; set (W := e0) in *; clearbody Q W end.
    apply Rmult_le_reg_r with (4 * PI * W); [apply Rmult_lt_0_compat; lra|]. replace (Q / 4 / PI / W * (4 * PI * W)) with Q by (field; lra).
    pose proof (Rmult_le_compat PI 4 W (1 / 100000000000) ltac:(lra) ltac:(lra) H4 ltac:(lra)). lra. }
  set (K := _ / _ / _ / _) in *. clearbody K. apply Rmult_le_reg_r with K; [lra|]. replace (a * (1 / 10000000000000000000) / K * K) with (a * (1 / 10000000000000000000)) by (field; lra). lra.
Qed.

(** ** C79 *)
(** if the tolerance is fine enough for the number of nodes, the reported point is usable *)
Theorem C79_reported_point_usable_partial :
  forall Za Zb Ma Mb E0 p ip n tol V m,
    screened ip -> 0 < Za -> 0 < Zb -> 0 < Ma -> 0 < Mb -> 0 < E0 -> 0 < p -> (0 < m)%nat ->
    let a := screening_length Za Zb ip in
    let E := E0 * Mb / (Ma + Mb) in
    let e := reduced_energy a Za Zb E in
    is_potential a Za Zb ip V -> 0 < tol -> 2 / e < (INR n - 1) * sqrt tol ->
    a * (sqrt tol * (2 + 14/10 / e)) < p * (1 - gm_node m 1) ->
    exists x, newton_rootfinder Za Zb Ma Mb E0 p ip n tol = Ok (Some x) /\
      forall i, (1 <= i <= m)%nat -> let u := gm_node m i in
        0 < 1 - V (x * a / u) / E - (p / (x * a / u)) * (p / (x * a / u)).
Proof.
  intros Za Zb Ma Mb E0 p ip n tol V m Hs Ha Hb Hma Hmb HE0 Hp Hm a E e HV Htol Hn Hfine.
  pose proof (screening_length_pos Za Zb ip Hs Ha Hb) as Hap. fold a in Hap.
  assert (HE : 0 < E) by (apply Rdiv_lt_0_compat; [apply Rmult_lt_0_compat; assumption|lra]).
  destruct (newton_converges Za Zb Ma Mb E0 p ip n tol Hs Ha Hb Hma Hmb HE0 ltac:(lra) (or_introl Hp) Htol Hn) as (x & r & H1 & H2 & (Hr & Ht & Huniq) & H4).
  fold a E e in H4, Ht, Huniq. exists x. split; [exact H1|]. intros i Hi u.
  destruct (unique_turning_point_screened Za Zb E p ip Hs Ha Hb HE ltac:(lra)) as (r' & (Hr' & Ht' & _) & Hpr).
  assert (r' = r) by (apply Huniq; assumption). subst r'.
  assert (Eu : forall j, gm_node m j = cos (gm_th m j)) by (intros j; unfold gm_node, gm_angle, gm_th; toR; reflexivity).
  destruct (gm_sc m i Hi) as (_ & Hc). destruct (gm_sc m 1 ltac:(lia)) as (_ & Hc1). rewrite Eu in Hfine. unfold u. rewrite Eu.
  assert (Hmono : cos (gm_th m i) <= cos (gm_th m 1)).
  { pose proof (gm_th_range m i Hi) as Hri. pose proof (gm_th_range m 1 ltac:(lia)) as Hr1. pose proof PI_RGT_0.
    apply cos_decr_1; try lra. unfold gm_th. assert (0 < INR m) by (apply lt_0_INR; lia). assert (1 <= INR i) by (change 1 with (INR 1); apply le_INR; lia).
    apply Rmult_le_compat_r; [lra|]. unfold Rdiv. apply Rmult_le_compat_r; [left; apply Rinv_0_lt_compat; assumption|]. cbn [INR]. lra. }
  set (c := cos (gm_th m i)) in *. set (c1 := cos (gm_th m 1)) in *. clearbody c c1.
  assert (Hxa : r - p * (1 - c1) < x * a). { pose proof (Rle_abs (- (x * a - r))) as HA. rewrite Rabs_Ropp in HA. lra. }
  assert (Hgt : r < x * a / c).
  { apply Rmult_lt_reg_r with c; [lra|]. replace (x * a / c * c) with (x * a) by (field; lra).
    pose proof (Rmult_le_compat_l r c c1 ltac:(lra) Hmono). pose proof (Rmult_le_compat_r (1 - c1) p r ltac:(lra) Hpr). lra. }
  rewrite (potential_unique a Za Zb ip V Hs HV).
  destruct (radicand_sign Za Zb E p ip (x * a / c) r Hs Ha Hb HE ltac:(lra) Hr Ht ltac:(lra)) as (_ & H). apply H. exact Hgt.
Qed.
Print Assumptions C79_reported_point_usable_partial.
(** at reduced energies up to 5 the reported point always lies strictly inside
    the turning point, so whatever the tolerance, with enough quadrature nodes
    the radicand at the first node is negative *)
Theorem C79_reported_point_usable_refuted :
  forall Za Zb Ma Mb E0 p ip n tol V x,
    screened ip -> 0 < Za -> 0 < Zb -> 0 < Ma -> 0 < Mb -> 0 < E0 -> 0 < p ->
    let a := screening_length Za Zb ip in
    let E := E0 * Mb / (Ma + Mb) in
    is_potential a Za Zb ip V -> reduced_energy a Za Zb E <= 5 ->
    newton_rootfinder Za Zb Ma Mb E0 p ip n tol = Ok (Some x) ->
    exists n0, forall m, (n0 <= m)%nat -> let u := gm_node m 1 in
      1 - V (x * a / u) / E - (p / (x * a / u)) * (p / (x * a / u)) < 0.
Proof.
  intros Za Zb Ma Mb E0 p ip n tol V x Hs Ha Hb Hma Hmb HE0 Hp a E HV He5 Hx.
  pose proof (screening_length_pos Za Zb ip Hs Ha Hb) as Hap. fold a in Hap.
  assert (HE : 0 < E) by (apply Rdiv_lt_0_compat; [apply Rmult_lt_0_compat; assumption|lra]).
  destruct (newton_falls_short Za Zb Ma Mb E0 p ip n tol x Hs Ha Hb Hma Hmb HE0 Hp He5 Hx) as (H1 & H2). fold a in H1, H2.
  destruct (unique_turning_point_screened Za Zb E p ip Hs Ha Hb HE ltac:(lra)) as (r & (Hr & Ht & _) & Hpr). fold a in Ht.
  specialize (H2 r Hr Ht).
  assert (Hq : x * a / r < 1). { apply Rmult_lt_reg_r with r; [exact Hr|]. replace (x * a / r * r) with (x * a) by (field; lra). lra. }
  destruct (cos_node_limit _ Hq) as (n0 & Hn0 & Hcos). exists n0. intros m Hm u.
  assert (Eu : u = cos (gm_th m 1)) by (unfold u, gm_node, gm_angle, gm_th; toR; reflexivity).
  specialize (Hcos m Hm). rewrite <- Eu in Hcos. destruct (gm_sc m 1 ltac:(lia)) as (_ & Hc). rewrite <- Eu in Hc. clearbody u.
  assert (Hlt : x * a / u < r). { apply Rmult_lt_reg_r with u; [lra|]. replace (x * a / u * u) with (x * a) by (field; lra).
    pose proof (Rmult_lt_compat_r r _ _ Hr Hcos) as HH. replace (x * a / r * r) with (x * a) in HH by (field; lra). lra. }
  rewrite (potential_unique a Za Zb ip V Hs HV).
  destruct (radicand_sign Za Zb E p ip (x * a / u) r Hs Ha Hb HE ltac:(lra) Hr Ht ltac:(apply Rdiv_lt_0_compat; lra)) as (H & _). apply H. exact Hlt.
Qed.
Print Assumptions C79_reported_point_usable_refuted.
(** and in binary64 a negative radicand makes the quadrature panic, whatever the math library *)
Theorem C79_negative_radicand_panics :
  forall (lm : Libm) u p r0 E V v, let NF := NumSF lm in
    V (ndiv r0 u) = Ok v ->
    nlt (nsub (nsub (nZ 1) (ndiv v E)) (npowi (ndiv (nmul p u) r0) 2)) (nZ 0) = true ->
    scattering_function_gm u p r0 E V = Panic UnwrapErr.
Proof. intros lm u p r0 E V v NF HV H. exact (sf_negative_radicand_panics lm u p r0 E V v HV H). Qed.
Print Assumptions C79_negative_radicand_panics.
