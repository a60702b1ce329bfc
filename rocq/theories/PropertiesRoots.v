(** * PropertiesRoots.v - C95, C96: what the root finders of the feature
    cpr_rootfinder return, and the Gauss-Legendre rule *)
From Coquelicot Require Import Coquelicot.
From Coq Require Import ZArith List Bool Lia Reals Lra.
From Verif Require Import Num ModelTypes ModelConsts ModelInteractions ModelBca ProofsBase NumR SpecR SpecCollision SpecRoots
  ProofsInteractions ProofsNewton ProofsCollision PropertiesCollision ProofsRoots ProofsQuad.
Import ListNotations.
Open Scope R_scope.

(** ** C95: the root finders return the outermost turning point *)

(** If the polynomial library lists the real roots of the polynomial it is
    given, the polynomial root finder succeeds and returns (in screening
    lengths) the turning point an incoming particle meets first. *)
Theorem C95_polynomial_root_finder :
  forall q ip Za Zb Ma Mb E0 p ct V cs roots,
    repulsive_core ip -> 0 < Za -> 0 < Zb -> 0 < Ma -> 0 < Mb -> 0 < E0 ->
    let a := screening_length Za Zb ip in
    let E := E0 * Mb / (Ma + Mb) in
    is_potential a Za Zb ip V ->
    polynomial_coefficients E p ip = Ok cs ->
    cq_real_polynomial_roots q cs ct = Some roots -> lists_exactly roots (fun t => poly_eval cs t = 0) ->
    exists x, polynomial_rootfinder q Za Zb Ma Mb E0 p ip ct = Ok (Some x) /\ outermost_turning_point V E p (x * a).
Proof. exact polynomial_outermost. Qed.
Print Assumptions C95_polynomial_root_finder.

(** If the Chebyshev library lists the zeros of the function it is given in the
    interval it is given, the CPR root finder returns the largest turning point
    there; *)
Theorem C95_cpr_root_finder :
  forall q ip Za Zb Ma Mb E0 p n0 nmax ep ct tt fz il (derivative_free : bool) V roots,
    ~ is_coulomb ip -> ~ is_four_eight ip -> well_formed_potential ip -> 0 < screening_length Za Zb ip ->
    0 < Za -> 0 < Zb -> 0 < Ma -> 0 < Mb -> 0 < E0 ->
    let a := screening_length Za Zb ip in
    let E := E0 * Mb / (Ma + Mb) in
    let f := fun r => distance_of_closest_approach_function r a Za Zb E p ip in
    let g := fun r => let! v := distance_of_closest_approach_function_singularity_free r a Za Zb E p ip in
                      let! s := scaling_function r p ip in Ok (v * s) in
    let d := fun r => diff_distance_of_closest_approach_function r a Za Zb E p ip in
    let lo := 1 / 1000000000000000 in
    let hi := p + crossing_point_doca ip in
    is_potential a Za Zb ip V ->
    cq_find_roots q g f (if derivative_free then None else Some d) lo hi n0 ep nmax ct tt il fz = Ok (Some roots) ->
    lists_exactly roots (fun r => lo <= r <= hi /\ f r = Ok 0) ->
    (exists r, lo <= r <= hi /\ turning_point V E p r) ->
    exists x, cpr_rootfinder q Za Zb Ma Mb E0 p ip n0 nmax ep ct tt fz il derivative_free = Ok (Some x) /\
      lo <= x * a <= hi /\ turning_point V E p (x * a) /\
      (forall r, lo <= r <= hi -> turning_point V E p r -> r <= x * a).
Proof. exact cpr_largest. Qed.
Print Assumptions C95_cpr_root_finder.
(** and for potentials with an attractive tail nothing lies beyond the interval,
    so that point is the outermost one. *)
Theorem C95_cpr_root_finder_outermost :
  forall q ip Za Zb Ma Mb E0 p n0 nmax ep ct tt fz il (derivative_free : bool) V roots,
    attractive_tail ip -> 0 < Za -> 0 < Zb -> 0 < Ma -> 0 < Mb -> 0 < E0 -> 0 <= p -> 0 <= crossing_point_doca ip ->
    let a := screening_length Za Zb ip in
    let E := E0 * Mb / (Ma + Mb) in
    let f := fun r => distance_of_closest_approach_function r a Za Zb E p ip in
    let g := fun r => let! v := distance_of_closest_approach_function_singularity_free r a Za Zb E p ip in
                      let! s := scaling_function r p ip in Ok (v * s) in
    let d := fun r => diff_distance_of_closest_approach_function r a Za Zb E p ip in
    let lo := 1 / 1000000000000000 in
    let hi := p + crossing_point_doca ip in
    is_potential a Za Zb ip V ->
    cq_find_roots q g f (if derivative_free then None else Some d) lo hi n0 ep nmax ct tt il fz = Ok (Some roots) ->
    lists_exactly roots (fun r => lo <= r <= hi /\ f r = Ok 0) ->
    (exists r, lo <= r /\ turning_point V E p r) ->
    exists x, cpr_rootfinder q Za Zb Ma Mb E0 p ip n0 nmax ep ct tt fz il derivative_free = Ok (Some x) /\
      outermost_turning_point V E p (x * a).
Proof.
  intros q ip Za Zb Ma Mb E0 p n0 nmax ep ct tt fz il df V roots Hip Ha Hb HMa HMb HE0 Hp Hc a E f g d lo hi HV Hq Hall (r & Hr & Ht).
  assert (HE : 0 < E) by (unfold E; apply Rdiv_lt_0_compat; [apply Rmult_lt_0_compat; assumption|lra]).
  assert (Hap : 0 < a).
  { unfold a. destruct ip; cbn in Hip; try (destruct Hip; fail); cbn [screening_length]; cbv zeta; try (apply lindhard_length_pos; assumption). apply Hip. }
  assert (Hlo : 0 < lo) by (unfold lo; lra).
  assert (Hhi : forall r, lo <= r -> turning_point V E p r -> r <= hi).
  { intros r' Hr' Ht'. destruct (Rle_lt_dec r' hi) as [|Hlt]; [assumption|exfalso].
    apply (tail_beyond ip a Za Zb V E p r'); try assumption. lra. }
  destruct (cpr_largest q ip Za Zb Ma Mb E0 p n0 nmax ep ct tt fz il df V roots) as (x & Hx & Hxr & Hxt & Hmax); try assumption.
  - intros C. clear - Hip C. destruct ip; cbn in *; tauto.
  - intros C. clear - Hip C. destruct ip; cbn in *; tauto.
  - clear - Hip. destruct ip; cbn in *; try tauto. destruct Hip. lra.
  - exists r. split; [split; [exact Hr|apply Hhi; assumption]|exact Ht].
  - exists x. split; [exact Hx|]. fold a in Hxr, Hxt, Hmax. fold E in Hxt, Hmax. fold lo hi in Hxr, Hmax. split; [lra|]. split; [exact Hxt|].
    intros r' Hlt Ht'. assert (Hr' : lo <= r') by lra. pose proof (Hmax r' (conj Hr' (Hhi r' Hr' Ht')) Ht'). lra.
Qed.
Print Assumptions C95_cpr_root_finder_outermost.

(** The scaled function that the CPR root finder hands to the Chebyshev library
    is the unscaled one damped by a factor between 0 and 1: the same zeros, the
    turning points, and no others, and no poles. *)
Theorem C95_scaled_function :
  forall ip Za Zb E p V, ~ is_coulomb ip -> ~ is_four_eight ip -> well_formed_potential ip ->
    0 < Za -> 0 < Zb -> 0 < E -> 0 < p ->
    let a := screening_length Za Zb ip in
    is_potential a Za Zb ip V ->
    forall r, 0 < r -> exists d s,
      distance_of_closest_approach_function_singularity_free r a Za Zb E p ip = Ok d /\
      scaling_function r p ip = Ok s /\ 0 < s <= 1 /\ (d * s = 0 <-> turning_point V E p r).
Proof.
  intros ip Za Zb E p V Hc Hf Hw Ha Hb HE Hp a HV r Hr.
  destruct (C42_roots_are_turning_points_partial ip Za Zb E p V Hc Hf Hw Ha Hb HE HV r Hr) as (d0 & d & _ & Hd & _ & Ht).
  assert (HS : exists s, scaling_function r p ip = Ok s /\ 0 < s <= 1).
  { assert (K : forall x, 0 <= x -> 0 < 1 / (1 + x) <= 1).
    { intros x Hx. split; [apply Rdiv_lt_0_compat; lra|]. apply Rmult_le_reg_r with (1 + x); [lra|]. unfold Rdiv. rewrite Rmult_assoc, Rinv_l; lra. }
    assert (Q : forall x, 0 <= powerRZ x 2).
    { intro x. change (powerRZ x 2) with (x * (x * 1)). rewrite Rmult_1_r. apply Rle_0_sqr. }
    destruct ip; cbn [is_coulomb is_four_eight well_formed_potential] in Hc, Hf, Hw; try tauto; cbn [scaling_function];
      rewrite ?nZ_R; eexists; (split; [reflexivity|]); toR; change (@npowi R NumR) with powerRZ; try (apply K; first [apply Q|apply Rle_0_sqr|rewrite npowf_pos by (apply Rdiv_lt_0_compat; lra); apply Rlt_le, exp_pos]); try lra. }
  destruct HS as (s & HS & Hs). exists d, s. split; [exact Hd|]. split; [exact HS|]. split; [exact Hs|].
  rewrite <- Ht. split; intro H; [|rewrite H; apply Rmult_0_l]. apply Rmult_integral in H. destruct H; lra.
Qed.
Print Assumptions C95_scaled_function.

(** A Lennard-Jones potential (sigma = 1, epsilon = 1), relative energy 8, head-on:
    the polynomial t^6 + t^3 / 2 - 1 / 2 has the roots -1 and 2^(-1/3). *)
Definition half_root : R := Rpower (1 / 2) (1 / 3).
Lemma half_root_cube : half_root * half_root * half_root = 1 / 2.
Proof.
  unfold half_root. rewrite <- !Rpower_plus. replace (1 / 3 + 1 / 3 + 1 / 3) with 1 by lra. apply Rpower_1. lra.
Qed.
Lemma half_root_pos : 0 < half_root. Proof. apply Rpower_gt0. Qed.
Lemma cube_inj x y : x * x * x = y * y * y -> x = y.
Proof.
  intros H. assert (H0 : (x - y) * ((x + y / 2) * (x + y / 2) + 3 / 4 * (y * y)) = 0) by (ring_simplify; ring_simplify in H; lra).
  apply Rmult_integral in H0. destruct H0 as [|H0]; [lra|].
  assert (0 <= (x + y / 2) * (x + y / 2)) by apply Rle_0_sqr. assert (0 <= y * y) by apply Rle_0_sqr.
  assert (Hy : y * y = 0) by lra. assert (Hx : (x + y / 2) * (x + y / 2) = 0) by lra.
  apply Rmult_integral in Hy. apply Rmult_integral in Hx. lra.
Qed.
Definition unit_lj : InteractionPotential R := LENNARD_JONES_12_6 1 1.
Lemma lj_polynomial : exists cs, polynomial_coefficients 8 0 unit_lj = Ok cs /\ forall t, poly_eval cs t = t * t * t * (t * t * t) + t * t * t / 2 - 1 / 2.
Proof.
  eexists. split; [reflexivity|]. intros t. unfold poly_eval. cbn [fold_left]. toR. cbn [npowi NumR]. 
  pose proof cEV_pos. set (ev := (cEV : R)) in *. clearbody ev.
  rewrite (npowf_nat 1 6 6 eq_refl), (npowf_nat 1 12 12 eq_refl) by lra. rewrite !pow1.
  replace (powerRZ 0 2) with 0 by (simpl; ring). field. lra.
Qed.
Lemma lj_roots t : t * t * t * (t * t * t) + t * t * t / 2 - 1 / 2 = 0 <-> t = half_root \/ t = -1.
Proof.
  split.
  - intros H. assert (H0 : (t * t * t - 1 / 2) * (t * t * t + 1) = 0) by lra.
    apply Rmult_integral in H0. destruct H0 as [H0|H0]; [left|right]; apply cube_inj; [rewrite half_root_cube|]; lra.
  - intros [->| ->]; [rewrite half_root_cube|]; lra.
Qed.
Example C95_polynomial_applies : exists q cs roots,
  repulsive_core unit_lj /\ polynomial_coefficients (16 * 1 / (1 + 1)) 0 unit_lj = Ok cs /\
  cq_real_polynomial_roots q cs 0 = Some roots /\ lists_exactly roots (fun t => poly_eval cs t = 0).
Proof.
  destruct lj_polynomial as (cs & Hcs & He).
  exists {| cq_real_polynomial_roots := fun _ _ => Some [half_root; -1]; cq_find_roots := fun _ _ _ _ _ _ _ _ _ _ _ _ => Ok None |}, cs, [half_root; -1].
  split; [cbn; lra|]. split; [replace (16 * 1 / (1 + 1)) with 8 by lra; exact Hcs|]. split; [reflexivity|].
  intros t. rewrite He, lj_roots. cbn. intuition.
Qed.
Example C95_cpr_applies : exists q roots,
  let a := screening_length 1 1 unit_lj in
  let E := 16 * 1 / (1 + 1) in
  let f := fun r => distance_of_closest_approach_function r a 1 1 E 0 unit_lj in
  let V := fun r => lennard_jones r 1 1 in
  let lo := 1 / 1000000000000000 in
  let hi := 0 + crossing_point_doca unit_lj in
  attractive_tail unit_lj /\ is_potential a 1 1 unit_lj V /\
  (forall g d, cq_find_roots q g f d lo hi 2 0 3 0 0 0 0 = Ok (Some roots)) /\
  lists_exactly roots (fun r => lo <= r <= hi /\ f r = Ok 0) /\ exists r, lo <= r <= hi /\ turning_point V E 0 r.
Proof.
  exists {| cq_real_polynomial_roots := fun _ _ => None; cq_find_roots := fun _ _ _ _ _ _ _ _ _ _ _ _ => Ok (Some [sqrt half_root]) |}, [sqrt half_root].
  intros a E f V lo hi. pose proof half_root_pos as Hh. pose proof half_root_cube as Hc.
  assert (HE : E = 8) by (unfold E; lra).
  assert (HV : is_potential a 1 1 unit_lj V) by (intros r; reflexivity).
  assert (Ht : forall r, 0 < r -> (turning_point V E 0 r <-> r = sqrt half_root)).
  { intros r Hr. destruct (C43_polynomial_roots_are_turning_points unit_lj 1 1 8 0 V I ltac:(cbn; lra) ltac:(lra) HV) as (cs & Hcs & Hturn).
    destruct lj_polynomial as (cs' & Hcs' & He). assert (cs' = cs) by congruence. subst cs'.
    destruct (Hturn (r * r) ltac:(apply Rmult_lt_0_compat; exact Hr)) as (r1 & Hr1 & _ & Hiff).
    cbn [inverse_transform unit_lj] in Hr1. apply (f_equal (fun r => match r with Ok l => l | _ => 0 end)) in Hr1. cbv beta iota in Hr1. toR_in Hr1.
    rewrite sqrt_square in Hr1 by lra. subst r1. rewrite HE, <- Hiff, He, lj_roots. split.
    - intros [H|H]; [rewrite <- H; symmetry; apply sqrt_square; lra|]. assert (0 < r * r) by (apply Rmult_lt_0_compat; exact Hr). lra.
    - intros ->. left. apply sqrt_sqrt. lra. }
  assert (H1 : sqrt half_root < 1).
  { rewrite <- sqrt_1 at 1. apply sqrt_lt_1_alt. split; [lra|]. destruct (Rlt_le_dec half_root 1) as [|C]; [assumption|exfalso].
    assert (1 * 1 <= half_root * half_root) by (apply Rmult_le_compat; lra).
    assert (1 * 1 * 1 <= half_root * half_root * half_root) by (apply Rmult_le_compat; lra). lra. }
  assert (H0 : 1 / 2 <= sqrt half_root).
  { assert (half_root <= 1 \/ 1 < half_root) as [Hl|Hl] by lra.
    - destruct (Rle_lt_dec (1 / 2) (sqrt half_root)) as [|C]; [assumption|exfalso].
      assert (Hs : sqrt half_root * sqrt half_root = half_root) by (apply sqrt_sqrt; lra). pose proof (sqrt_pos half_root).
      assert (half_root <= 1 / 2 * (1 / 2)) by (rewrite <- Hs; apply Rmult_le_compat; lra).
      assert (half_root * half_root <= 1 / 4 * (1 / 4)) by (apply Rmult_le_compat; lra).
      assert (half_root * half_root * half_root <= 1 / 4 * (1 / 4) * (1 / 4)) by (apply Rmult_le_compat; try lra; apply Rle_0_sqr). lra.
    - exfalso. assert (1 * 1 <= half_root * half_root) by (apply Rmult_le_compat; lra).
      assert (1 * 1 * 1 <= half_root * half_root * half_root) by (apply Rmult_le_compat; lra). lra. }
  assert (Hf : forall r, 0 < r -> (f r = Ok 0 <-> turning_point V E 0 r)).
  { intros r Hr. assert (HE0 : 0 < E) by lra. assert (Hone : 0 < 1) by lra. assert (Hwf : well_formed_potential unit_lj) by exact Hone.
    destruct (C42_roots_are_turning_points_partial unit_lj 1 1 E 0 V (fun C => C) (fun C => C) Hwf Hone Hone HE0 HV r Hr) as (v & v' & K1 & _ & K2 & _).
    unfold f, a. rewrite K1. rewrite <- K2. split; [intros K; congruence|intros ->; reflexivity]. }
  assert (Hb : lo <= sqrt half_root <= hi) by (unfold lo, hi; cbn [crossing_point_doca unit_lj]; lra).
  split; [cbn; lra|]. split; [exact HV|]. split; [reflexivity|]. split.
  - intros r. cbn [In]. split.
    + intros [<-|[]]. split; [exact Hb|]. apply Hf, Ht; lra.
    + intros (Hr & K). left. symmetry. assert (0 < r) by (unfold lo in Hr; lra). apply Ht; [assumption|]. apply Hf; assumption.
  - exists (sqrt half_root). split; [exact Hb|]. apply Ht; lra.
Qed.

(** ** C96: the Gauss-Legendre quadrature is the five-point rule *)

(** It integrates every polynomial of degree up to nine over [0, 1], to the six
    digits its constants are given with. *)
Theorem C96_degree_nine :
  forall p E r0 V cs, (length cs <= 10)%nat ->
    (forall u, scattering_function_gl u p r0 E V = Ok (value_at u cs)) ->
    exists theta, scattering_integral_gauss_legendre p E r0 V = Ok theta /\
      Rabs (PI - theta - RInt (fun u => value_at u cs) 0 1) <= 1 / 1000000 * magnitude cs.
Proof.
  intros p E r0 V cs Hl Hs. exists (PI - rule (fun u => value_at u cs)). split; [apply gl_fun; exact Hs|].
  pose proof (rule_polynomial cs 0 Hl) as H. rewrite (rule_ext _ (fun u => value_at u cs)) in H by (intros; cbn [pow]; ring).
  assert (HI : RInt (fun u => value_at u cs) 0 1 = moments 0 cs).
  { apply is_RInt_unique. apply (is_RInt_ext (fun u => u ^ 0 * value_at u cs)); [intros x _; cbn [pow]; apply Rmult_1_l|]. apply polynomial_integral. }
  rewrite HI. replace (PI - (PI - rule (fun u => value_at u cs)) - moments 0 cs) with (rule (fun u => value_at u cs) - moments 0 cs) by ring.
  exact H.
Qed.
Print Assumptions C96_degree_nine.
(** an attractive inverse-square potential makes the integrand 4 u *)
Example C96_applies : forall u, scattering_function_gl u 1 1 1 (fun r => Ok (- (/ r * / r))) = Ok (value_at u [0; 4]).
Proof.
  intros u. unfold scattering_function_gl. cbn [bind]. change (nis_nan _) with false. cbv iota. f_equal. toR. cbn [value_at fold_right].
  replace (/ (1 / (1 - u * u))) with (1 - u * u) by (unfold Rdiv; rewrite Rmult_1_l, Rinv_inv; reflexivity).
  replace (1 - - ((1 - u * u) * (1 - u * u)) / 1 - 1 * 1 * ((1 - u * u) * (1 - u * u)) / 1 / 1) with 1 by field.
  rewrite sqrt_1. field.
Qed.
(** Without a potential the deflection is zero to the same accuracy. *)
Theorem C96_no_potential :
  forall p E, 0 < p -> exists theta,
    scattering_integral_gauss_legendre p E p (fun _ => Ok 0) = Ok theta /\ Rabs theta <= 3 / 1000000.
Proof. exact gl_no_potential. Qed.
Print Assumptions C96_no_potential.
