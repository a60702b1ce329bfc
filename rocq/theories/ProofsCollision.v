(** * ProofsCollision.v - what the Newton root finder reports, and where it misleads *)
From Coquelicot Require Import Coquelicot.
From Coq Require Import ZArith List Bool Lia Reals Lra Floats.SpecFloat.
From Verif Require Import Num ModelTypes ModelConsts ModelInteractions ModelBca ProofsBase NumR NumSF Spec SpecR SpecCollision ProofsInteractions ProofsNewton.
Import ListNotations.
Open Scope R_scope.

(** ** the loop, for any number type *)
Lemma newton_loop_report {F} {NF : Num F} (f df : F -> Res F) a tol : forall n x res,
  newton_loop f df a tol n x = Ok res ->
  exists xs, newton_path f df a x xs /\ (length xs <= n)%nat /\
    match res with
    | Some y => exists pre u, combine (x :: xs) xs = pre ++ [(u, y)] /\ small_step tol (u, y) = true /\
                  Forall (fun uv => small_step tol uv = false) pre
    | None => length xs = n /\ Forall (fun uv => small_step tol uv = false) (combine (x :: xs) xs)
    end.
Proof.
  induction n as [|n IH]; intros x res H; cbn [newton_loop] in H.
  - injection H as <-. exists []. repeat split; try constructor.
  - apply bind_ok in H. destruct H as (fx & Hf & H). apply bind_ok in H. destruct H as (dfx & Hdf & H). cbv zeta in H.
    set (x' := nsub x (ndiv fx dfx)) in *. destruct (nlt _ tol) eqn:Ht.
    + injection H as <-. exists [x']. split; [split; [exists fx, dfx; auto|exact I]|]. split; [cbn; lia|].
      exists [], x. split; [reflexivity|]. split; [exact Ht|constructor].
    + destruct (IH _ _ H) as (xs & Hp & Hlen & Hres). exists (x' :: xs).
      split; [split; [exists fx, dfx; auto|exact Hp]|]. split; [cbn; lia|].
      destruct res as [y|].
      * destruct Hres as (pre & u & E & Hs & Hpre). exists ((x, x') :: pre), u.
        split; [change (combine (x :: x' :: xs) (x' :: xs)) with ((x, x') :: combine (x' :: xs) xs); rewrite E; reflexivity|].
        split; [exact Hs|]. constructor; [exact Ht|exact Hpre].
      * destruct Hres as (E & Hpre). split; [cbn; lia|].
        change (combine (x :: x' :: xs) (x' :: xs)) with ((x, x') :: combine (x' :: xs) xs). constructor; [exact Ht|exact Hpre].
Qed.

(** ** head-on collisions in binary64 *)
Lemma sf_nan_sub x : SFsub NumSF.prec NumSF.emax S754_nan x = S754_nan.
Proof. destruct x; reflexivity. Qed.
Lemma sf_sub_nan x : SFsub NumSF.prec NumSF.emax x S754_nan = S754_nan.
Proof. destruct x; reflexivity. Qed.
Lemma sf_nan_div x : SFdiv NumSF.prec NumSF.emax S754_nan x = S754_nan.
Proof. destruct x; reflexivity. Qed.
Lemma sf_head_on_nan (a : spec_float) :
  let b := SFdiv NumSF.prec NumSF.emax (S754_zero false) a in
  SFdiv NumSF.prec NumSF.emax (SFmul NumSF.prec NumSF.emax b b) (SFdiv NumSF.prec NumSF.emax (SFmul NumSF.prec NumSF.emax b a) a) = S754_nan.
Proof. destruct a as [s|s| |s m e]; try destruct s; reflexivity. Qed.
Lemma newton_loop_from_nan (lm : Libm) f df a tol : (forall r, exists v, f r = Ok v) -> (forall r, exists v, df r = Ok v) ->
  forall n, @newton_loop _ (NumSF lm) f df a tol n S754_nan = Ok None.
Proof.
  intros Hf Hdf. induction n as [|n IH]; [reflexivity|]. cbn [newton_loop].
  destruct (Hf (@nmul _ (NumSF lm) S754_nan a)) as (v & ->). cbn [bind]. destruct (Hdf (@nmul _ (NumSF lm) S754_nan a)) as (w & ->). cbn [bind]. cbv zeta.
  change (@nsub _ (NumSF lm)) with (SFsub NumSF.prec NumSF.emax). rewrite !sf_nan_sub. exact IH.
Qed.
Lemma head_on_fails (lm : Libm) Za Zb Ma Mb E0 ip n tol :
  match ip with MOLIERE | KR_C | ZBL | LENZ_JENSEN | TRIDYN => True | _ => False end ->
  let a := @screening_length _ (NumSF lm) Za Zb ip in
  @nlt _ (NumSF lm) (@nZ _ (NumSF lm) 5)
    (@nmul _ (NumSF lm) (@ndiv _ (NumSF lm) (@ndiv _ (NumSF lm) (@ndiv _ (NumSF lm) (@nmul _ (NumSF lm) (@nmul _ (NumSF lm) (@cLINDHARD_REDUCED_ENERGY_PREFACTOR _ (NumSF lm)) a) Mb) (@nadd _ (NumSF lm) Ma Mb)) Za) Zb) E0) = false ->
  @newton_rootfinder _ (NumSF lm) Za Zb Ma Mb E0 (S754_zero false) ip n tol = Ok None.
Proof.
  intros Hs a Hlow. unfold newton_rootfinder. fold a. cbv zeta. unfold newton_guess. rewrite Hlow.
  set (f := fun r => distance_of_closest_approach_function r _ _ _ _ _ _).
  set (df := fun r => diff_distance_of_closest_approach_function r _ _ _ _ _ _).
  assert (Hf : forall r, exists v, f r = Ok v) by (intros r; unfold f; destruct ip; try (destruct Hs; fail); eexists; reflexivity).
  assert (Hdf : forall r, exists v, df r = Ok v) by (intros r; unfold df; destruct ip; try (destruct Hs; fail); eexists; reflexivity).
  destruct n as [|n]; [reflexivity|]. cbn [newton_loop].
  set (b := @ndiv _ (NumSF lm) (S754_zero false) a).
  assert (Hn : f (@nmul _ (NumSF lm) b a) = Ok S754_nan).
  { unfold f. destruct ip; try (destruct Hs; fail); cbn [distance_of_closest_approach_function];
      unfold doca_function; cbn [phi bind]; f_equal; fold a; fold b;
      change (@ndiv _ (NumSF lm)) with (SFdiv NumSF.prec NumSF.emax) in *; change (@nmul _ (NumSF lm)) with (SFmul NumSF.prec NumSF.emax);
      change (@nsub _ (NumSF lm)) with (SFsub NumSF.prec NumSF.emax); unfold b; rewrite sf_head_on_nan; apply sf_sub_nan. }
  rewrite Hn. cbn [bind]. destruct (Hdf (@nmul _ (NumSF lm) b a)) as (w & ->). cbn [bind]. cbv zeta.
  change (@ndiv _ (NumSF lm)) with (SFdiv NumSF.prec NumSF.emax). change (@nsub _ (NumSF lm)) with (SFsub NumSF.prec NumSF.emax).
  rewrite sf_nan_div, sf_sub_nan, sf_nan_sub. cbn [nlt NumSF nmul SFmul SFltb SFcompare]. 
  apply newton_loop_from_nan; assumption.
Qed.

(** ** Newton on a Lennard-Jones potential *)
Lemma screening_length_lj_bound Za Zb s e : 1 <= Za -> 1 <= Zb -> 0 < screening_length Za Zb (LENNARD_JONES_12_6 s e) <= 1 / 10000000000.
Proof.
  intros Ha Hb. cbn [screening_length]. cbv zeta. split; [apply lindhard_length_pos; lra|]. toR.
  assert (1 <= sqrt Za) by (replace 1 with (sqrt 1) at 1 by apply sqrt_1; apply sqrt_le_1_alt; lra).
  assert (1 <= sqrt Zb) by (replace 1 with (sqrt 1) at 1 by apply sqrt_1; apply sqrt_le_1_alt; lra).
  rewrite npowf_pos by lra. unfold cA0. rewrite !nlit_neg.
  assert (Hp : Rpower (sqrt Za + sqrt Zb) (-2 / 3) <= 1).
  { unfold Rpower. replace 1 with (exp 0) by apply exp_0. destruct (Rle_lt_dec (-2 / 3 * ln (sqrt Za + sqrt Zb)) 0) as [[Hl|Hl]|Hl].
    - left. apply exp_increasing. exact Hl.
    - rewrite Hl. lra.
    - exfalso. assert (0 <= ln (sqrt Za + sqrt Zb)) by (rewrite <- ln_1; destruct (Req_dec 1 (sqrt Za + sqrt Zb)) as [->|]; [lra|left; apply ln_increasing; lra]). lra. }
  pose proof (Rpower_gt0 (sqrt Za + sqrt Zb) (-2 / 3)).
  set (w := Rpower _ _) in *. clearbody w.
  assert (E : 8853 / IZR (10 ^ 4) * (529177210903 / IZR (10 ^ 22)) <= 1 / 10000000000).
  { change (10 ^ 4)%Z with 10000%Z. change (10 ^ 22)%Z with 10000000000000000000000%Z. lra. }
  assert (E0 : 0 < 8853 / IZR (10 ^ 4) * (529177210903 / IZR (10 ^ 22))).
  { change (10 ^ 4)%Z with 10000%Z. change (10 ^ 22)%Z with 10000000000000000000000%Z. lra. }
  pose proof (Rmult_le_compat_l _ w 1 (Rlt_le _ _ E0) Hp). lra.
Qed.

(** f at sigma / 2 with relative energy epsilon and impact parameter sigma / 2 *)
Lemma lj_at_half sigma epsilon : 0 < sigma -> 0 < epsilon ->
  doca_lennard_jones (sigma / 2) (sigma / 2) epsilon sigma epsilon = - (63 / 16) /\
  diff_doca_lennard_jones (sigma / 2) (sigma / 2) epsilon sigma epsilon = (3 / 4 + 1 / 1024) / sigma.
Proof.
  intros Hs He. assert (H1 : 0 < sigma / 2 / sigma) by (apply Rdiv_lt_0_compat; lra). assert (H2 : 0 < sigma / 2) by lra.
  unfold doca_lennard_jones, diff_doca_lennard_jones. toR.
  rewrite (npowf_nat (sigma / 2 / sigma) 12 12 eq_refl), (npowf_nat (sigma / 2 / sigma) 6 6 eq_refl), (npowf_nat (sigma / 2) 10 10 eq_refl), (npowf_nat sigma 12 12 eq_refl),
    (npowf_nat (sigma / 2 / sigma) 11 11 eq_refl), (npowf_nat (sigma / 2 / sigma) 5 5 eq_refl), (npowf_nat (sigma / 2) 9 9 eq_refl) by assumption.
  split; field; split; lra.
Qed.
Lemma newton_lj_wrong Za Zb Ma Mb E0 sigma epsilon n tol :
  1 <= Za -> 1 <= Zb -> 0 < epsilon -> E0 * Mb / (Ma + Mb) = epsilon -> 0 < sigma <= 1 / 1000000 -> 1 / 1000000000 <= tol ->
  let ip := LENNARD_JONES_12_6 sigma epsilon in
  let a := screening_length Za Zb ip in
  reduced_energy a Za Zb epsilon <= 5 ->
  exists x, newton_rootfinder Za Zb Ma Mb E0 (sigma / 2) ip (S n) tol = Ok (Some x) /\ x * a < 51 / 100 * sigma.
Proof.
  intros Ha Hb He HE Hs Htol ip a Hr. pose proof (screening_length_lj_bound Za Zb sigma epsilon Ha Hb) as Hap. fold ip in Hap. fold a in Hap.
  unfold newton_rootfinder. fold a. cbv zeta.
  assert (Er : cLINDHARD_REDUCED_ENERGY_PREFACTOR *! a *! Mb /! (Ma +! Mb) /! Za /! Zb *! E0 = reduced_energy a Za Zb epsilon).
  { pose proof (reduced_energy_R a Za Zb epsilon ltac:(lra) ltac:(lra)) as H. unfold reduced_energy. rewrite <- H, <- HE. toR. unfold Rdiv. ring. }
  rewrite Er. replace (E0 *! Mb /! (Ma +! Mb)) with epsilon by (symmetry; exact HE).
  rewrite newton_guess_R. unfold Rltb. destruct (Rlt_dec 5 _) as [H5|_]; [lra|].
  cbn [newton_loop]. unfold ip at 1 2. cbn [distance_of_closest_approach_function diff_distance_of_closest_approach_function bind]. toR.
  replace (sigma / 2 / a * a) with (sigma / 2) by (field; lra). destruct (lj_at_half sigma epsilon ltac:(lra) He) as (-> & ->).
  set (d := - (63 / 16) / ((3 / 4 + 1 / 1024) / sigma)). assert (Ed : d = - (63 / 16) * 1024 / 769 * sigma) by (unfold d; field; lra). clearbody d.
  assert (Hd : - (6 * sigma) <= d <= 0) by lra. 
  set (x1 := sigma / 2 / a - d). replace (x1 - sigma / 2 / a) with (- d) by (unfold x1; ring).
  assert (Hsq : nlt (- d * - d) tol = true).
  { apply nlt_true. pose proof (Rmult_le_compat (- d) (6 * sigma) (- d) (6 * sigma) ltac:(lra) ltac:(lra) ltac:(lra) ltac:(lra)).
    pose proof (Rmult_le_compat sigma (1 / 1000000) sigma (1 / 1000000) ltac:(lra) ltac:(lra) ltac:(lra) ltac:(lra)). lra. }
  rewrite Hsq. exists x1. split; [reflexivity|]. unfold x1. replace ((sigma / 2 / a - d) * a) with (sigma / 2 + - d * a) by (field; lra).
  pose proof (Rmult_le_compat (- d) (6 * sigma) a (1 / 1000) ltac:(lra) ltac:(lra) ltac:(lra) ltac:(lra)). lra.
Qed.
(** the turning points lie between 0.9 sigma and sigma *)
Lemma lj_turning sigma epsilon : 0 < sigma -> 0 < epsilon ->
  (exists r, 9 / 10 * sigma < r < sigma /\ turning_point (fun r => lennard_jones r sigma epsilon) epsilon (sigma / 2) r) /\
  (forall r, 0 < r -> turning_point (fun r => lennard_jones r sigma epsilon) epsilon (sigma / 2) r -> 9 / 10 * sigma < r).
Proof.
  intros Hs He.
  set (h := fun s : R => s ^ 12 + 4 * s ^ 6 - 4 - s ^ 10 / 4).
  assert (Hh : forall s, 0 < s -> 1 - lennard_jones (s * sigma) sigma epsilon / epsilon - sigma / 2 / (s * sigma) * (sigma / 2 / (s * sigma)) = h s / s ^ 12).
  { intros s Hsp. unfold h, lennard_jones. toR. assert (H0 : 0 < s * sigma) by (apply Rmult_lt_0_compat; assumption).
    assert (0 < sigma / (s * sigma)) by (apply Rdiv_lt_0_compat; assumption).
    rewrite (npowf_nat (sigma / (s * sigma)) 12 12 eq_refl), (npowf_nat (sigma / (s * sigma)) 6 6 eq_refl) by assumption.
    replace (sigma / (s * sigma)) with (/ s) by (field; lra). rewrite !pow_inv. 
    assert (s ^ 12 <> 0) by (apply pow_nonzero; lra). field. lra. }
  assert (Hlow : forall s, 0 < s <= 9 / 10 -> h s < 0).
  { intros s Hsp. unfold h. pose proof (pow_incr s (9 / 10) 12 ltac:(lra)) as P12. pose proof (pow_incr s (9 / 10) 6 ltac:(lra)) as P6.
    pose proof (pow_lt s 10 ltac:(lra)) as P10. set (u := s ^ 12) in *. set (w := s ^ 6) in *. set (z := s ^ 10) in *. clearbody u w z.
    assert ((9 / 10) ^ 12 < 3 / 10) by (simpl; lra). assert ((9 / 10) ^ 6 < 6 / 10) by (simpl; lra). lra. }
  split.
  - assert (Hc : continuity h) by (unfold h; reg).
    destruct (IVT h (9 / 10) 1 Hc ltac:(lra) (Hlow (9 / 10) ltac:(lra)) ltac:(unfold h; simpl; lra)) as (z & Hz & Hz0).
    assert (Hz1 : 9 / 10 < z < 1).
    { split.
      - destruct (Rle_lt_dec z (9 / 10)) as [H|H]; [|exact H]. pose proof (Hlow z ltac:(lra)). lra.
      - destruct (Rlt_le_dec z 1) as [H|H]; [exact H|]. assert (z = 1) by lra. subst z. unfold h in Hz0. simpl in Hz0. lra. }
    exists (z * sigma). split; [split|].
    + apply Rmult_lt_compat_r; lra.
    + rewrite <- (Rmult_1_l sigma) at 2. apply Rmult_lt_compat_r; lra.
    + unfold turning_point. rewrite Hh by lra. rewrite Hz0. field. lra.
  - intros r Hr Ht. unfold turning_point in Ht. assert (Hrs : 0 < r / sigma) by (apply Rdiv_lt_0_compat; assumption).
    assert (Er : r = r / sigma * sigma) by (field; lra). rewrite Er in Ht. rewrite Hh in Ht by exact Hrs.
    destruct (Rle_lt_dec r (9 / 10 * sigma)) as [H|H]; [|exact H]. exfalso.
    assert (r / sigma <= 9 / 10). { apply Rmult_le_reg_r with sigma; [exact Hs|]. rewrite <- Er. exact H. }
    pose proof (Hlow (r / sigma) ltac:(lra)) as HL. pose proof (pow_lt (r / sigma) 12 Hrs) as HP.
    assert (h (r / sigma) = h (r / sigma) / (r / sigma) ^ 12 * (r / sigma) ^ 12) as E by (field; repeat split; lra).
    rewrite Ht in E. lra.
Qed.

(** ** the reported turning point and the quadrature *)
Section Left.
  Context (l : list (R * R)) (e b : R) (Hl : pos_terms l) (He : 0 < e) (Hb : 0 < b).
  Let F (x : R) : R := x - expsum l x / e - b * b / x.
  Let G (x : R) : R := b * b / x / x - dexpsum l x / e + 1.
  Lemma F_strictly_concave x y : 0 < x -> 0 < y -> x <> y -> F y < F x + G x * (y - x).
  Proof.
    intros Hx Hy Hxy. unfold F, G. pose proof (div_e_le e He _ _ (expsum_convex l x y Hl)) as H1.
    assert (H2 : 1 / x - (y - x) / (x * x) < 1 / y).
    { assert (E : 1 / y - (1 / x - (y - x) / (x * x)) = (y - x) * (y - x) / (x * x * y)) by (field; lra).
      assert (0 < (y - x) * (y - x) / (x * x * y)); [|lra].
      apply Rdiv_lt_0_compat; [apply Rsqr_pos_lt; lra|]. apply Rmult_lt_0_compat; [apply Rmult_lt_0_compat|]; assumption. }
    pose proof (Rmult_lt_compat_l _ _ _ (Rmult_lt_0_compat b b Hb Hb) H2) as H3.
    replace (b * b * (1 / x - (y - x) / (x * x))) with (b * b / x - b * b / x / x * (y - x)) in H3 by (field; lra).
    replace (b * b * (1 / y)) with (b * b / y) in H3 by (field; lra).
    replace ((expsum l x + dexpsum l x * (y - x)) / e) with (expsum l x / e + dexpsum l x / e * (y - x)) in H1 by (field; lra).
    lra.
  Qed.
  Lemma nl_stays_left tol xs : 0 < xs -> F xs = 0 -> forall k x x', 0 < x -> x < xs -> nl l e b tol k x = Some x' -> x < x' /\ x' < xs.
  Proof.
    intros Hxs Hz. induction k as [|k IH]; intros x x' Hx Hlt H; [discriminate|].
    cbn [nl] in H. cbv zeta in H. change (x - (x - expsum l x / e - b * b / x) / (b * b / x / x - dexpsum l x / e + 1)) with (x - F x / G x) in H. set (s := x - F x / G x) in *.
    assert (HG : 1 <= G x) by (exact (G_ge1 l e b Hl He ltac:(lra) x Hx)).
    pose proof (F_strictly_concave x xs Hx Hxs ltac:(lra)) as HF. rewrite Hz in HF.
    assert (Hs : xs - x <= F xs - F x) by (exact (F_slope l e b Hl He ltac:(lra) x xs Hx ltac:(lra))). rewrite Hz in Hs.
    assert (E : F x = F x / G x * G x) by (field; lra). set (d := F x / G x) in *.
    assert (Hd : d < 0). { destruct (Rlt_le_dec d 0); [assumption|]. pose proof (Rmult_le_pos d (G x) ltac:(lra) ltac:(lra)). lra. }
    assert (Hsx : s < xs). { unfold s. destruct (Rlt_le_dec (x - d) xs) as [|Hge]; [assumption|exfalso].
      pose proof (Rmult_le_compat_r (G x) xs (x - d) ltac:(lra) Hge). lra. }
    destruct (nlt _ tol); [injection H as <-; unfold s in *; split; lra|].
    destruct (IH s x' ltac:(unfold s; lra) Hsx H). split; [unfold s in *; lra|assumption].
  Qed.
End Left.

Lemma newton_falls_short Za Zb Ma Mb E0 p ip n tol x :
  screened ip -> 0 < Za -> 0 < Zb -> 0 < Ma -> 0 < Mb -> 0 < E0 -> 0 < p ->
  let a := screening_length Za Zb ip in
  let E := E0 * Mb / (Ma + Mb) in
  let V := fun r => Za * Zb * cQ * cQ / 4 / PI / cEPS0 / r * expsum (screening_terms ip) (r / a) in
  reduced_energy a Za Zb E <= 5 ->
  newton_rootfinder Za Zb Ma Mb E0 p ip n tol = Ok (Some x) ->
  p < x * a /\ forall r, 0 < r -> turning_point V E p r -> x * a < r.
Proof.
  intros Hs Ha Hb Hma Hmb HE0 Hp a E V He5 H.
  pose proof (screening_length_pos Za Zb ip Hs Ha Hb) as Hap. fold a in Hap.
  assert (HE : 0 < E) by (apply Rdiv_lt_0_compat; [apply Rmult_lt_0_compat; assumption|lra]).
  pose proof (reduced_energy_pos a Za Zb E Hap Ha Hb HE) as Hep.
  assert (Hbp : 0 < p / a) by (apply Rdiv_lt_0_compat; assumption).
  pose proof (screening_terms_pos ip Hs) as Hl.
  rewrite (newton_rootfinder_R Za Zb Ma Mb E0 p ip n tol Hs Ha Hb Hma Hmb HE0) in H. cbv zeta in H. fold a in H. fold E in H.
  set (e := reduced_energy a Za Zb E) in *. unfold Rltb in H. destruct (Rlt_dec 5 e) as [H5|_]; [lra|].
  assert (Hn : nl (screening_terms ip) e (p / a) tol n (p / a) = Some x) by congruence.
  assert (Hroot : forall r, 0 < r -> turning_point V E p r -> 0 < r / a /\ r / a - expsum (screening_terms ip) (r / a) / e - p / a * (p / a) / (r / a) = 0).
  { intros r Hr Ht. assert (Hra : 0 < r / a) by (apply Rdiv_lt_0_compat; assumption). split; [exact Hra|].
    apply (screened_root_turning Za Zb E p ip (r / a) Hs Ha Hb HE Hra). fold a. fold V. replace (r / a * a) with r by (field; lra). exact Ht. }
  assert (Hall : forall r, 0 < r -> turning_point V E p r -> p / a < x /\ x < r / a).
  { intros r Hr Ht. destruct (Hroot r Hr Ht) as (Hra & Hz).
    refine (nl_stays_left (screening_terms ip) e (p / a) Hl Hep Hbp tol (r / a) Hra Hz n (p / a) x Hbp _ Hn).
    destruct (Rlt_le_dec (p / a) (r / a)) as [|Hge]; [assumption|exfalso].
    assert (Hsl : p / a - r / a <= (p / a - expsum (screening_terms ip) (p / a) / e - p / a * (p / a) / (p / a)) - (r / a - expsum (screening_terms ip) (r / a) / e - p / a * (p / a) / (r / a)))
      by (exact (F_slope (screening_terms ip) e (p / a) Hl Hep ltac:(lra) (r / a) (p / a) Hra Hge)). rewrite Hz in Hsl.
    pose proof (expsum_pos (screening_terms ip) (p / a) Hl) as Hpe. assert (0 < expsum (screening_terms ip) (p / a) / e) by (apply Rdiv_lt_0_compat; assumption).
    replace (p / a * (p / a) / (p / a)) with (p / a) in Hsl by (field; lra). lra. }
  destruct (unique_turning_point_screened Za Zb E p ip Hs Ha Hb HE ltac:(lra)) as (r & (Hr & Ht & _) & _). fold a in Ht. fold V in Ht.
  split.
  - destruct (Hall r Hr Ht) as (H1 & _). pose proof (Rmult_lt_compat_r a _ _ Hap H1) as HH. replace (p / a * a) with p in HH by (field; lra). exact HH.
  - intros r' Hr' Ht'. destruct (Hall r' Hr' Ht') as (_ & H1). pose proof (Rmult_lt_compat_r a _ _ Hap H1) as HH. replace (r' / a * a) with r' in HH by (field; lra). exact HH.
Qed.
(** inside the turning point the radicand is negative, outside it is positive *)
Lemma radicand_sign Za Zb E p ip r rt : screened ip -> 0 < Za -> 0 < Zb -> 0 < E -> 0 <= p ->
  let a := screening_length Za Zb ip in
  let V := fun r => Za * Zb * cQ * cQ / 4 / PI / cEPS0 / r * expsum (screening_terms ip) (r / a) in
  0 < rt -> turning_point V E p rt -> 0 < r ->
  (r < rt -> 1 - V r / E - (p / r) * (p / r) < 0) /\ (rt < r -> 0 < 1 - V r / E - (p / r) * (p / r)).
Proof.
  intros Hs Ha Hb HE Hp a V Hrt Ht Hr. pose proof (screening_length_pos Za Zb ip Hs Ha Hb) as Hap. fold a in Hap.
  unfold turning_point in Ht.
  assert (Hmono : forall u v, 0 < u -> u < v -> 1 - V u / E - p / u * (p / u) < 1 - V v / E - p / v * (p / v)).
  { intros u v Hu Huv. destruct (screened_decreasing Za Zb a ip Hs Ha Hb Hap u v Hu Huv) as (_ & HV). fold V in HV. cbv beta in HV.
    assert (V v / E < V u / E) by (apply (Rmult_lt_compat_r (/ E)); [apply Rinv_0_lt_compat; exact HE|exact HV]).
    assert (H1 : / v < / u) by (apply Rinv_lt_contravar; [apply Rmult_lt_0_compat; lra|exact Huv]).
    assert (H2 : 0 < / v) by (apply Rinv_0_lt_compat; lra).
    assert (H3 : p / v <= p / u) by (unfold Rdiv; apply Rmult_le_compat_l; lra).
    assert (H4 : 0 <= p / v) by (apply Rle_mult_inv_pos; lra).
    pose proof (Rmult_le_compat _ _ _ _ H4 H4 H3 H3). lra. }
  split; intros H.
  - pose proof (Hmono r rt Hr H). lra.
  - pose proof (Hmono rt r Hrt H). lra.
Qed.
Lemma cos_node_limit c : c < 1 -> exists n0, (0 < n0)%nat /\ forall n, (n0 <= n)%nat -> c < cos (gm_th n 1).
Proof.
  intros Hc.
  assert (Hcont : continuity_pt cos 0) by apply continuity_cos.
  destruct (Hcont (1 - c) ltac:(lra)) as (d & Hd & Hcos). unfold dist in Hcos. cbn in Hcos. unfold R_dist in Hcos.
  destruct (archimed (PI / d)) as (Harch & _). set (N := up (PI / d)) in *. pose proof PI_RGT_0 as HPI.
  assert (HPd : 0 < PI / d) by (apply Rdiv_lt_0_compat; assumption).
  assert (HN : (0 < N)%Z) by (apply lt_IZR; lra).
  exists (Z.to_nat N). split; [lia|]. intros n Hn.
  assert (HnR : IZR N <= INR n). { rewrite INR_IZR_INZ. apply IZR_le. lia. }
  assert (Hn0 : 0 < INR n) by lra.
  assert (Eth : gm_th n 1 = PI / INR n / 4) by (unfold gm_th; cbn [INR]; field; lra).
  assert (Hsmall : 0 < gm_th n 1 < d).
  { rewrite Eth. assert (0 < PI / INR n) by (apply Rdiv_lt_0_compat; assumption). split; [lra|].
    assert (PI / INR n < d). { apply Rmult_lt_reg_r with (INR n); [exact Hn0|]. replace (PI / INR n * INR n) with (PI / d * d) by (field; lra).
      rewrite (Rmult_comm d). apply Rmult_lt_compat_r; lra. } lra. }
  specialize (Hcos (gm_th n 1)). rewrite cos_0 in Hcos. 
  assert (HH : Rabs (cos (gm_th n 1) - 1) < 1 - c).
  { apply Hcos. split; [split; [exact I|lra]|]. rewrite Rminus_0_r, Rabs_right; lra. }
  apply Rabs_def2 in HH. lra.
Qed.
(** in binary64 a negative radicand makes the quadrature panic, whatever libm does *)
Lemma sf_negative_radicand_panics (lm : Libm) u p r0 E V v : V (@ndiv _ (NumSF lm) r0 u) = Ok v ->
  @nlt _ (NumSF lm) (@nsub _ (NumSF lm) (@nsub _ (NumSF lm) (@nZ _ (NumSF lm) 1) (@ndiv _ (NumSF lm) v E))
     (@npowi _ (NumSF lm) (@ndiv _ (NumSF lm) (@nmul _ (NumSF lm) p u) r0) 2)) (S754_zero false) = true ->
  @scattering_function_gm _ (NumSF lm) u p r0 E V = Panic UnwrapErr.
Proof.
  intros HV Hneg. unfold scattering_function_gm. rewrite HV. cbn [bind]. cbv zeta.
  set (rad := @nsub _ (NumSF lm) _ (@npowi _ _ _ _)) in *. clearbody rad.
  assert (Hn : @nsqrt _ (NumSF lm) rad = S754_nan).
  { destruct rad as [[]|[]| |[] m ex]; try discriminate; reflexivity. }
  rewrite Hn. change (@ndiv _ (NumSF lm)) with (SFdiv NumSF.prec NumSF.emax).
  destruct (SFdiv NumSF.prec NumSF.emax p r0); reflexivity.
Qed.
