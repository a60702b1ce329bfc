(** * ProofsNewton.v - derivatives, Newton's method and the quadratures *)
From Coquelicot Require Import Coquelicot.
From Coq Require Import ZArith List Bool Lia Reals Lra.
From Verif Require Import Num ModelTypes ModelConsts ModelInteractions ModelBca ProofsBase NumR SpecR SpecCollision ProofsInteractions.
Import ListNotations.
Open Scope R_scope.

(** ** derivatives *)
Lemma deriv_ext_pos (f g : R -> R) x l : 0 < x -> (forall y, 0 < y -> f y = g y) ->
  derivable_pt_lim f x l -> derivable_pt_lim g x l.
Proof.
  intros Hx He Hd. apply is_derive_Reals. apply is_derive_Reals in Hd.
  eapply is_derive_ext_loc; [|exact Hd].
  exists (mkposreal x Hx). intros y Hy. apply He. unfold ball in Hy; cbn in Hy. unfold AbsRing_ball, abs, minus, plus, opp in Hy; cbn in Hy.
  apply Rabs_def2 in Hy. lra.
Qed.
Lemma doca_screened_deriv e b l x : x <> 0 -> e <> 0 ->
  derivable_pt_lim (fun x => x - expsum l x / e - b * b / x) x (b * b / x / x - dexpsum l x / e + 1).
Proof.
  intros Hx He. apply is_derive_Reals. pose proof (expsum_deriv l x) as Hd. apply is_derive_Reals in Hd.
  assert (Hex : ex_derive (expsum l) x) by (eexists; exact Hd).
  assert (Hv : Derive (expsum l) x = dexpsum l x) by (apply is_derive_unique; exact Hd).
  auto_derive; [repeat split; assumption|]. replace (Derive (fun x0 : R => expsum l x0) x) with (dexpsum l x) by (symmetry; exact Hv). field. split; assumption.
Qed.
Lemma doca_transformed_deriv e b l x : e <> 0 ->
  derivable_pt_lim (fun x => x * x - x * expsum l x / e - b * b) x (2 * x - expsum l x / e - x * dexpsum l x / e).
Proof.
  intros He. apply is_derive_Reals. pose proof (expsum_deriv l x) as Hd. apply is_derive_Reals in Hd.
  assert (Hex : ex_derive (expsum l) x) by (eexists; exact Hd).
  assert (Hv : Derive (expsum l) x = dexpsum l x) by (apply is_derive_unique; exact Hd).
  auto_derive; [repeat split; assumption|]. replace (Derive (fun x0 : R => expsum l x0) x) with (dexpsum l x) by (symmetry; exact Hv). field. assumption.
Qed.
Lemma lj_deriv p E sigma epsilon r : 0 < sigma -> E <> 0 -> 0 < r ->
  derivable_pt_lim (fun r => doca_lennard_jones r p E sigma epsilon) r (diff_doca_lennard_jones r p E sigma epsilon).
Proof.
  intros Hs HE Hr.
  apply (deriv_ext_pos (fun r => (r / sigma) ^ 12 - 4 * epsilon / E * (1 - (r / sigma) ^ 6) - p * p * r ^ 10 / sigma ^ 12)); [exact Hr| |].
  - intros y Hy. assert (0 < y / sigma) by (apply Rdiv_lt_0_compat; assumption). unfold doca_lennard_jones. toR.
    rewrite (npowf_nat (y / sigma) 12 12 eq_refl), (npowf_nat (y / sigma) 6 6 eq_refl), (npowf_nat y 10 10 eq_refl), (npowf_nat sigma 12 12 eq_refl) by assumption.
    reflexivity.
  - assert (0 < r / sigma) by (apply Rdiv_lt_0_compat; assumption).
    replace (diff_doca_lennard_jones r p E sigma epsilon) with
      (12 * (r / sigma) ^ 11 / sigma + 4 * epsilon / E * 6 * (r / sigma) ^ 5 / sigma - 10 * (p * p) * r ^ 9 / sigma ^ 12).
    2: { unfold diff_doca_lennard_jones. toR.
      rewrite (npowf_nat (r / sigma) 11 11 eq_refl), (npowf_nat (r / sigma) 5 5 eq_refl), (npowf_nat r 9 9 eq_refl), (npowf_nat sigma 12 12 eq_refl) by assumption.
      reflexivity. }
    apply is_derive_Reals. auto_derive; [exact I|]. cbn [pred].  field. repeat split; lra.
Qed.
Lemma lj65_deriv p E sigma epsilon r : 0 < sigma -> E <> 0 -> 0 < r ->
  derivable_pt_lim (fun r => doca_lennard_jones_65_6 r p E sigma epsilon) r (diff_doca_lennard_jones_65_6 r p E sigma epsilon).
Proof.
  intros Hs HE Hr.
  apply (deriv_ext_pos (fun r => sqrt (r / sigma) ^ 13 - 4 * epsilon / E * (1 - sqrt (r / sigma)) - (p / sigma) * (p / sigma) * sqrt (r / sigma) ^ 9)); [exact Hr| |].
  - intros y Hy. assert (0 < y / sigma) by (apply Rdiv_lt_0_compat; assumption). unfold doca_lennard_jones_65_6. toR.
    rewrite !nlit_neg. change (10 ^ 1)%Z with 10%Z.
    replace (65 / 10) with (13 / 2) by lra. replace (45 / 10) with (9 / 2) by lra. replace (5 / 10) with (1 / 2) by lra.
    rewrite (npowf_half (y / sigma) 13 13 eq_refl), (npowf_half (y / sigma) 1 1 eq_refl), (npowf_half (y / sigma) 9 9 eq_refl) by assumption.
    rewrite pow_1. reflexivity.
  - assert (Hq : 0 < r / sigma) by (apply Rdiv_lt_0_compat; assumption).
    assert (Hsr : 0 < sigma * r) by (apply Rmult_lt_0_compat; assumption).
    assert (Es : sqrt (r / sigma) * sqrt (r / sigma) = r / sigma) by (apply sqrt_sqrt; lra).
    assert (E1 : npowf (sigma * r) (- (5 / 10)) = / (sigma * sqrt (r / sigma))).
    { rewrite npowf_pos by exact Hsr. replace (5 / 10) with (/ 2) by lra. rewrite Rpower_Ropp, Rpower_sqrt by exact Hsr.
      f_equal. replace (sigma * r) with ((sigma * sigma) * (r / sigma)) by (field; lra).
      rewrite sqrt_mult_alt by (apply Rmult_le_pos; lra). rewrite sqrt_square by lra. reflexivity. }
    replace (diff_doca_lennard_jones_65_6 r p E sigma epsilon) with
      (13 / 2 * sqrt (r / sigma) ^ 11 / sigma + 4 * epsilon / E * (5 / 10) * / (sigma * sqrt (r / sigma)) - (p / sigma) * (p / sigma) * (9 / 2) * sqrt (r / sigma) ^ 7 / sigma).
    2: { unfold diff_doca_lennard_jones_65_6. toR. rewrite !nlit_neg. change (10 ^ 1)%Z with 10%Z. rewrite E1.
      replace (65 / 10) with (13 / 2) by lra. replace (45 / 10) with (9 / 2) by lra. replace (55 / 10) with (11 / 2) by lra. replace (35 / 10) with (7 / 2) by lra.
      rewrite (npowf_half (r / sigma) 11 11 eq_refl), (npowf_half (r / sigma) 7 7 eq_refl) by assumption. reflexivity. }
    apply is_derive_Reals. pose proof (sqrt_lt_R0 _ Hq). auto_derive; [repeat split; exact Hq|].
    change (r * / sigma) with (r / sigma). set (s := sqrt (r / sigma)) in *. cbn [pred]. 
    clearbody s. field. repeat split; lra.
Qed.
Lemma morse_deriv p E D alpha r0 r : E <> 0 ->
  derivable_pt_lim (fun r => doca_morse r p E D alpha r0) r
    (2 * alpha * alpha * r - 2 * alpha * alpha * r * D / E * (exp (-2 * alpha * (r - r0)) - 2 * exp (- alpha * (r - r0)))
     - alpha * alpha * r * r * D / E * (-2 * alpha * exp (-2 * alpha * (r - r0)) + 2 * alpha * exp (- alpha * (r - r0)))).
Proof.
  intros HE. apply is_derive_Reals.
  apply (is_derive_ext (fun r => (r * alpha) * (r * alpha) - (r * alpha) * (r * alpha) * D / E * (exp (-2 * alpha * (r - r0)) - 2 * exp (- alpha * (r - r0))) - (p * alpha) * (p * alpha))).
  { intros t. unfold doca_morse. toR. reflexivity. }
  auto_derive; [repeat split; assumption|]. replace (r + - r0) with (r - r0) by ring. field. exact HE.
Qed.

(** ** Newton's method on x - phi(x)/e - b^2/x *)
Section Newton.
  Context (l : list (R * R)) (e b : R) (Hl : pos_terms l) (He : 0 < e) (Hb : 0 <= b).
  Let F (x : R) : R := x - expsum l x / e - b * b / x.
  Let G (x : R) : R := b * b / x / x - dexpsum l x / e + 1.
  Let step (x : R) : R := x - F x / G x.
  Fixpoint nl (tol : R) (k : nat) (x : R) : option R :=
    match k with
    | O => None
    | S k' => let xn := step x in if nlt ((xn - x) * (xn - x)) tol then Some xn else nl tol k' xn
    end.
  Lemma div_e_le u v : u <= v -> u / e <= v / e.
  Proof. intros H. unfold Rdiv. apply Rmult_le_compat_r; [left; apply Rinv_0_lt_compat; exact He|exact H]. Qed.
  Lemma bb_nonneg : 0 <= b * b. Proof. apply Rmult_le_pos; exact Hb. Qed.
  Lemma F_concave x y : 0 < x -> 0 < y -> F y <= F x + G x * (y - x).
  Proof.
    intros Hx Hy. unfold F, G. pose proof (div_e_le _ _ (expsum_convex l x y Hl)) as H1.
    assert (H2 : 1 / x - (y - x) / (x * x) <= 1 / y).
    { assert (E : 1 / y - (1 / x - (y - x) / (x * x)) = (y - x) * (y - x) / (x * x * y)) by (field; lra).
      assert (0 <= (y - x) * (y - x) / (x * x * y)); [|lra].
      apply Rle_mult_inv_pos; [apply Rle_0_sqr|]. apply Rmult_lt_0_compat; [apply Rmult_lt_0_compat|]; assumption. }
    pose proof (Rmult_le_compat_l _ _ _ bb_nonneg H2) as H3.
    replace (b * b * (1 / x - (y - x) / (x * x))) with (b * b / x - b * b / x / x * (y - x)) in H3 by (field; lra).
    replace (b * b * (1 / y)) with (b * b / y) in H3 by (field; lra).
    replace ((expsum l x + dexpsum l x * (y - x)) / e) with (expsum l x / e + dexpsum l x / e * (y - x)) in H1 by (field; lra).
    lra.
  Qed.
  Lemma G_ge1 x : 0 < x -> 1 <= G x.
  Proof.
    intros Hx. unfold G. pose proof (dexpsum_neg l x Hl) as Hd. pose proof (div_e_le _ _ (Rlt_le _ _ Hd)) as H1.
    assert (0 <= b * b / x / x). { apply Rle_mult_inv_pos; [apply Rle_mult_inv_pos; [apply bb_nonneg|]|]; assumption. }
    replace (0 / e) with 0 in H1 by (field; lra). lra.
  Qed.
  Lemma G_decr x y : 0 < x -> x <= y -> G y <= G x.
  Proof.
    intros Hx Hxy. unfold G. pose proof (div_e_le _ _ (dexpsum_incr l x y Hl Hxy)).
    assert (b * b / y / y <= b * b / x / x); [|lra].
    replace (b * b / y / y) with (b * b * (/ y * / y)) by (field; lra). replace (b * b / x / x) with (b * b * (/ x * / x)) by (field; lra).
    apply Rmult_le_compat_l; [apply bb_nonneg|]. assert (/ y <= / x) by (apply Rinv_le_contravar; lra).
    assert (0 < / y) by (apply Rinv_0_lt_compat; lra). apply Rmult_le_compat; lra.
  Qed.
  Lemma F_slope x y : 0 < x -> x <= y -> y - x <= F y - F x.
  Proof.
    intros Hx Hxy. unfold F. pose proof (div_e_le _ _ (expsum_decr_le l x y Hl Hxy)).
    assert (b * b / y <= b * b / x); [|lra]. unfold Rdiv. apply Rmult_le_compat_l; [apply bb_nonneg|]. apply Rinv_le_contravar; lra.
  Qed.
  Lemma F_root_unique x y : 0 < x -> 0 < y -> F x = 0 -> F y = 0 -> x = y.
  Proof.
    intros Hx Hy H1 H2. destruct (Rle_lt_dec x y) as [H|H].
    - pose proof (F_slope x y Hx H). lra.
    - pose proof (F_slope y x Hy (Rlt_le _ _ H)). lra.
  Qed.
  Context (c K : R) (Hc : expsum l 0 <= c) (HK : - dexpsum l 0 <= K) (H1c : 1 <= expsum l 0).
  Lemma F_root : exists xs, 0 < xs /\ b <= xs /\ F xs = 0 /\ xs <= b + c / e.
  Proof.
    assert (Hce : 0 < c / e) by (apply Rdiv_lt_0_compat; lra).
    set (X := b + c / e). assert (EX : X = b + c / e) by reflexivity. clearbody X.
    set (g := fun x => x * x - x * expsum l x / e - b * b).
    assert (Hcont : continuity g).
    { intros x. apply derivable_continuous_pt. eexists. apply (doca_transformed_deriv e b l x). lra. }
    set (L := b + expsum l X / e).
    pose proof (expsum_pos l X Hl) as HpX. assert (HeX : 0 < expsum l X / e) by (apply Rdiv_lt_0_compat; assumption).
    assert (HLX : L <= X).
    { unfold L. pose proof (div_e_le _ _ (expsum_decr_le l 0 X Hl ltac:(lra))). pose proof (div_e_le _ _ Hc). lra. }
    (* g at the two ends *)
    assert (HX : 0 <= g X).
    { unfold g. pose proof (div_e_le (expsum l X) c ltac:(pose proof (expsum_decr_le l 0 X Hl ltac:(lra)); lra)) as H.
      replace (X * X - X * expsum l X / e - b * b) with (X * (X - expsum l X / e) - b * b) by (field; lra).
      assert (X * b <= X * (X - expsum l X / e)) by (apply Rmult_le_compat_l; [lra|lra]).
      assert (b * b <= X * b) by (apply Rmult_le_compat_r; lra). lra. }
    (* a positive point at or above b where g is not positive *)
    assert (exists m, 0 < m /\ b <= m /\ m <= X /\ g m <= 0) as (m & Hm0 & Hbm & HmX & Hgm).
    { destruct (Req_dec b 0) as [E0|E0].
      - exists (expsum l X / e). split; [exact HeX|]. rewrite E0 in *. split; [lra|]. split; [unfold L in HLX; lra|].
        unfold g. set (m := expsum l X / e) in *. pose proof (div_e_le _ _ (expsum_decr_le l m X Hl ltac:(unfold L in HLX; lra))) as H.
        fold m in H. replace (m * m - m * expsum l m / e - b * b) with (m * (m - expsum l m / e) - b * b) by (field; lra). rewrite E0.
        pose proof (Rmult_le_compat_l m _ 0 ltac:(lra) (ltac:(lra) : m - expsum l m / e <= 0)). lra.
      - exists b. assert (Hbp : 0 < b) by lra. split; [exact Hbp|]. split; [lra|]. split; [lra|].
        unfold g. pose proof (Rmult_lt_0_compat _ _ Hbp (expsum_pos l b Hl)).
        assert (0 < b * expsum l b / e) by (apply Rdiv_lt_0_compat; assumption). lra. }
    destruct (IVT_cor g m X Hcont HmX) as (z & (Hz1 & Hz2) & Hz).
    { pose proof (Rmult_le_compat_r (g X) (g m) 0 HX Hgm). lra. }
    exists z. split; [lra|]. split; [lra|]. split; [|exact Hz2].
    unfold F. unfold g in Hz. apply Rmult_eq_reg_l with z; [|lra]. replace (z * (z - expsum l z / e - b * b / z)) with (z * z - z * expsum l z / e - b * b) by (field; lra). lra.
  Qed.
  Lemma step_le x xs : 0 < x -> 0 < xs -> F xs = 0 -> step x <= xs.
  Proof.
    intros Hx Hxs Hz. pose proof (F_concave x xs Hx Hxs) as H. pose proof (G_ge1 x Hx). rewrite Hz in H. unfold step.
    assert (E : F x = F x / G x * G x) by (field; lra).
    destruct (Rle_lt_dec (x - F x / G x) xs) as [|Hlt]; [assumption|exfalso].
    pose proof (Rmult_lt_compat_r (G x) xs (x - F x / G x) ltac:(lra) Hlt). lra.
  Qed.
  Lemma step_ge x xs : 0 < x -> x <= xs -> F xs = 0 ->
    x <= step x /\ xs - step x <= (step x - x) * (G x - 1).
  Proof.
    intros Hx Hxs Hz. pose proof (F_slope x xs Hx Hxs) as Hs. pose proof (G_ge1 x Hx) as HG. rewrite Hz in Hs. unfold step.
    assert (E : F x = F x / G x * G x) by (field; lra). set (d := F x / G x) in *.
    assert (d <= 0). { destruct (Rle_lt_dec d 0); [assumption|]. pose proof (Rmult_lt_0_compat d (G x) ltac:(lra) ltac:(lra)). lra. }
    split; lra.
  Qed.
  (** from the left of the root: monotone, and it stops after at most (distance / sqrt tol) steps *)
  Lemma nl_left tol k : 0 < tol -> forall x xs, 0 < x -> x <= xs -> F xs = 0 -> xs - x < INR k * sqrt tol ->
    exists x', nl tol k x = Some x' /\ x <= x' /\ x' <= xs /\ xs - x' <= sqrt tol * (G x - 1).
  Proof.
    intros Htol. pose proof (sqrt_lt_R0 _ Htol) as Hst. induction k as [|k IH]; intros x xs Hx Hxs Hz Hk.
    - cbn in Hk. lra.
    - cbn [nl]. cbv zeta. destruct (step_ge x xs Hx Hxs Hz) as (H1 & H2).
      pose proof (step_le x xs Hx ltac:(lra) Hz) as H3. pose proof (G_ge1 x Hx) as HG.
      destruct (nlt ((step x - x) * (step x - x)) tol) eqn:Ht.
      + apply nlt_true in Ht. exists (step x). split; [reflexivity|]. split; [exact H1|]. split; [exact H3|].
        assert (step x - x < sqrt tol).
        { destruct (Rlt_le_dec (step x - x) (sqrt tol)) as [|Hge]; [assumption|exfalso].
          pose proof (Rmult_le_compat (sqrt tol) (step x - x) (sqrt tol) (step x - x) ltac:(lra) ltac:(lra) Hge Hge) as Hm. rewrite sqrt_sqrt in Hm by lra. lra. }
        pose proof (Rmult_le_compat_r (G x - 1) (step x - x) (sqrt tol) ltac:(lra) ltac:(lra)). lra.
      + apply nlt_false in Ht.
        assert (sqrt tol <= step x - x).
        { rewrite <- (sqrt_square (step x - x)) by lra. apply sqrt_le_1_alt. exact Ht. }
        rewrite S_INR in Hk.
        destruct (IH (step x) xs ltac:(lra) H3 Hz ltac:(lra)) as (x' & Hn & Ha & Hb' & Hc').
        exists x'. split; [exact Hn|]. split; [lra|]. split; [exact Hb'|].
        pose proof (G_decr x (step x) Hx H1) as HGd.
        pose proof (Rmult_le_compat_l (sqrt tol) (G (step x) - 1) (G x - 1) ltac:(lra) ltac:(lra)). lra.
  Qed.
  Context (HcB : c <= 11/10) (HKB : K <= 14/10).
  Lemma dexp_bound x : 0 <= x -> - dexpsum l x <= 14/10.
  Proof. intros Hx. pose proof (dexpsum_incr l 0 x Hl Hx). lra. Qed.
  Lemma G_bound x q : 0 < x -> b * b / x / x <= q -> G x - 1 <= q + 14/10 / e.
  Proof.
    intros Hx Hq. unfold G. pose proof (div_e_le _ _ (dexp_bound x ltac:(lra))).
    replace (- dexpsum l x / e) with (- (dexpsum l x / e)) in H by (field; lra). lra.
  Qed.
  (** the two initial guesses *)
  Lemma nl_from_b tol n : 0 < b -> 0 < tol -> 2 / e < (INR n - 1) * sqrt tol ->
    exists x xs, nl tol n b = Some x /\ 0 < x /\ 0 < xs /\ F xs = 0 /\ Rabs (x - xs) <= sqrt tol * (2 + 14/10 / e).
  Proof.
    intros Hbp Htol Hn. destruct F_root as (xs & Hxs & Hbx & Hz & Hup). pose proof (sqrt_lt_R0 _ Htol) as Hst.
    assert (c / e <= 11/10 / e) by (apply div_e_le; exact HcB). assert (11/10 / e <= 2 / e) by (apply div_e_le; lra).
    destruct (nl_left tol n Htol b xs Hbp Hbx Hz ltac:(lra)) as (x & Hx & H1 & H2 & H3).
    exists x, xs. split; [exact Hx|]. split; [lra|]. split; [exact Hxs|]. split; [exact Hz|].
    pose proof (G_bound b 1 Hbp ltac:(right; field; lra)) as HG.
    pose proof (Rmult_le_compat_l (sqrt tol) _ (2 + 14/10 / e) ltac:(lra) (ltac:(lra) : G b - 1 <= 2 + 14/10 / e)).
    rewrite Rabs_left1 by lra. lra.
  Qed.
  Lemma nl_from_guess tol n : 5 < e -> 0 < tol -> 2 / e < (INR n - 1) * sqrt tol ->
    exists x xs, nl tol n (1/2 / e + sqrt ((1/2 / e) * (1/2 / e) + b * b)) = Some x /\ 0 < x /\ 0 < xs /\ F xs = 0 /\
      Rabs (x - xs) <= sqrt tol * (2 + 14/10 / e).
  Proof.
    intros He5 Htol Hn. destruct F_root as (xs & Hxs & Hbx & Hz & Hup). pose proof (sqrt_lt_R0 _ Htol) as Hst.
    set (h := 1/2 / e). assert (Hh : 0 < h) by (apply Rdiv_lt_0_compat; lra).
    assert (Eh : 1 / e = 2 * h) by (unfold h; field; lra).
    assert (He2 : 2 / e = 4 * h) by (unfold h; field; lra). rewrite He2 in Hn.
    assert (Hh1 : h < 1/10). { unfold h. apply Rmult_lt_reg_r with e; [exact He|]. replace (1 / 2 / e * e) with (1/2) by (field; lra). lra. }
    assert (E14 : 14/10 / e = 14/5 * h) by (unfold h; field; lra). rewrite E14.
    assert (Hce : c / e <= 11/5 * h). { pose proof (div_e_le _ _ HcB). replace (11/10 / e) with (11/5 * h) in H by (unfold h; field; lra). exact H. }
    set (s := sqrt (h * h + b * b)).
    assert (Hs2 : s * s = h * h + b * b) by (apply sqrt_sqrt; pose proof bb_nonneg; pose proof (Rmult_lt_0_compat _ _ Hh Hh); lra).
    assert (Hs0 : 0 <= s) by apply sqrt_pos.
    assert (Hsb : b <= s). { destruct (Rle_lt_dec b s) as [|Hlt]; [assumption|]. pose proof (Rmult_le_0_lt_compat s b s b Hs0 Hs0 Hlt Hlt). pose proof (Rmult_lt_0_compat _ _ Hh Hh). lra. }
    set (x0 := h + s). assert (Hx0 : 0 < x0) by (unfold x0; lra).
    assert (Eb : b * b = x0 * x0 - 2 * h * x0) by (unfold x0; replace ((h + s) * (h + s) - 2 * h * (h + s)) with (s * s - h * h) by ring; lra).
    assert (EF : F x0 = (1 - expsum l x0) / e).
    { unfold F. rewrite Eb. replace ((x0 * x0 - 2 * h * x0) / x0) with (x0 - 2 * h) by (field; lra). rewrite <- Eh. field. lra. }
    pose proof (expsum_convex l 0 x0 Hl) as Hcv. rewrite Rminus_0_r in Hcv.
    assert (HKx : 1 - expsum l x0 <= 14/10 * x0).
    { pose proof (Rmult_le_compat_r x0 (- dexpsum l 0) (14/10) ltac:(lra) ltac:(lra)). lra. }
    pose proof (expsum_pos l x0 Hl) as Hpx.
    assert (HF1 : F x0 <= 28/100 * x0).
    { rewrite EF. pose proof (div_e_le _ _ HKx). replace (14/10 * x0 / e) with (14/5 * h * x0) in H by (unfold h; field; lra).
      pose proof (Rmult_lt_compat_r x0 _ _ Hx0 Hh1). lra. }
    assert (HF2 : F x0 <= 2 * h).
    { rewrite EF. pose proof (div_e_le (1 - expsum l x0) 1 ltac:(lra)). lra. }
    pose proof (G_ge1 x0 Hx0) as HG0.
    set (d := F x0 / G x0). assert (Ed : F x0 = d * G x0) by (unfold d; field; lra).
    assert (Hd1 : d <= 28/100 * x0 /\ d <= 2 * h).
    { destruct (Rle_lt_dec d 0); [split; lra|]. assert (d <= F x0). { rewrite Ed. pose proof (Rmult_le_compat_l d 1 (G x0) ltac:(lra) HG0). lra. } split; lra. }
    destruct Hd1 as (Hd1 & Hd2).
    assert (E1 : step x0 = x0 - d) by reflexivity.
    assert (Hx1 : 72/100 * x0 <= step x0) by lra.
    pose proof (step_le x0 xs Hx0 Hxs Hz) as Hle.
    destruct n as [|n]; [cbn in Hn; lra|]. rewrite S_INR in Hn.
    cbn [nl]. cbv zeta. fold step.
    destruct (nlt ((step x0 - x0) * (step x0 - x0)) tol) eqn:Ht.
    - apply nlt_true in Ht. exists (step x0), xs. split; [reflexivity|]. split; [lra|]. split; [exact Hxs|]. split; [exact Hz|].
      rewrite Rabs_left1 by lra.
      assert (Habs : Rabs (step x0 - x0) < sqrt tol).
      { rewrite <- sqrt_Rsqr_abs. apply sqrt_lt_1_alt. split; [apply Rle_0_sqr|exact Ht]. }
      destruct (Rle_lt_dec x0 xs) as [Hl0|Hl0].
      + destruct (step_ge x0 xs Hx0 Hl0 Hz) as (H1 & H2). rewrite Rabs_right in Habs by lra.
        assert (HGb : G x0 - 1 <= 2 + 14/5 * h).
        { rewrite <- E14. apply G_bound; [exact Hx0|]. rewrite Eb. replace ((x0 * x0 - 2 * h * x0) / x0 / x0) with (1 - 2 * h / x0) by (field; lra).
          assert (0 < 2 * h / x0) by (apply Rdiv_lt_0_compat; lra). lra. }
        pose proof (Rmult_le_compat (step x0 - x0) (sqrt tol) (G x0 - 1) (2 + 14/5 * h) ltac:(lra) ltac:(lra) ltac:(lra) HGb). lra.
      + rewrite Rabs_left in Habs by lra. pose proof (Rmult_le_compat_l (sqrt tol) 1 (2 + 14/5 * h) ltac:(lra) ltac:(lra)). lra.
    - assert (Hlow : b - h <= step x0) by (unfold x0 in *; lra).
      destruct (nl_left tol n Htol (step x0) xs ltac:(lra) Hle Hz ltac:(lra)) as (x & Hx & H1 & H2 & H3).
      exists x, xs. split; [exact Hx|]. split; [lra|]. split; [exact Hxs|]. split; [exact Hz|]. rewrite Rabs_left1 by lra.
      set (x1 := step x0) in *. assert (Hx1p : 0 < x1) by lra.
      assert (HGb : G x1 - 1 <= 2 + 14/5 * h).
      { rewrite <- E14. apply G_bound; [exact Hx1p|]. rewrite Eb.
        apply Rmult_le_reg_r with (x1 * x1); [apply Rmult_lt_0_compat; exact Hx1p|].
        replace ((x0 * x0 - 2 * h * x0) / x1 / x1 * (x1 * x1)) with (x0 * x0 - 2 * h * x0) by (field; lra).
        pose proof (Rmult_le_compat (72/100 * x0) x1 (72/100 * x0) x1 ltac:(lra) ltac:(lra) Hx1 Hx1).
        pose proof (Rmult_lt_0_compat _ _ Hh Hx0). pose proof (Rmult_lt_0_compat _ _ Hx0 Hx0). lra. }
      pose proof (Rmult_le_compat_l (sqrt tol) _ _ ltac:(lra) HGb). lra.
  Qed.
End Newton.
Lemma newton_loop_nl (f df : R -> Res R) a l e b tol :
  (forall x, f (x * a) = Ok (x - expsum l x / e - b * b / x)) ->
  (forall x, df (x * a) = Ok (b * b / x / x - dexpsum l x / e + 1)) ->
  forall k x, newton_loop f df a tol k x = Ok (nl l e b tol k x).
Proof.
  intros Hf Hdf. induction k as [|k IH]; intros x; [reflexivity|].
  cbn [newton_loop nl]. toR. rewrite Hf. cbn [bind]. rewrite Hdf. cbn [bind]. cbv zeta.
  change (@nlt R NumR) with Rltb.
  destruct (Rltb _ _); [reflexivity|apply IH].
Qed.
Lemma screening_terms_sum1 ip : screened ip -> 1 <= Rsum (map fst (screening_terms ip)).
Proof. destruct ip; cbn [screened]; intros H; try destruct H; unfold Rsum; cbn [screening_terms map fold_right fst]; lra. Qed.
Lemma newton_guess_R b e : newton_guess b e = if Rltb 5 e then 1/2 / e + sqrt ((1/2 / e) * (1/2 / e) + b * b) else b.
Proof.
  unfold newton_guess. rewrite nZ_R, nlit_neg. change (@nlt R NumR) with Rltb. destruct (Rltb 5 e); [|reflexivity].
  cbv zeta. toR. change (10 ^ 1)%Z with 10%Z. replace (5 / 10) with (1 / 2) by lra. reflexivity.
Qed.
Lemma newton_rootfinder_R Za Zb Ma Mb E0 p ip n tol :
  screened ip -> 0 < Za -> 0 < Zb -> 0 < Ma -> 0 < Mb -> 0 < E0 ->
  let a := screening_length Za Zb ip in
  let e := reduced_energy a Za Zb (E0 * Mb / (Ma + Mb)) in
  newton_rootfinder Za Zb Ma Mb E0 p ip n tol =
  Ok (nl (screening_terms ip) e (p / a) tol n (if Rltb 5 e then 1/2 / e + sqrt ((1/2 / e) * (1/2 / e) + p / a * (p / a)) else p / a)).
Proof.
  intros Hs Ha Hb Hma Hmb HE a e. unfold newton_rootfinder. fold a.
  pose proof (screening_length_pos Za Zb ip Hs Ha Hb) as Hap. fold a in Hap.
  assert (Ee : cLINDHARD_REDUCED_ENERGY_PREFACTOR *! a *! Mb /! (Ma +! Mb) /! Za /! Zb *! E0 = e).
  { unfold e, reduced_energy. pose proof cQ_pos. pose proof cEPS0_pos. pose proof PI_RGT_0.
    unfold cLINDHARD_REDUCED_ENERGY_PREFACTOR. toR. field. repeat split; lra. }
  cbv zeta. rewrite Ee, newton_guess_R. apply newton_loop_nl; intros x;
    destruct (doca_screened_R (x * a) a Za Zb (E0 * Mb / (Ma + Mb)) p ip Hs) as (H1 & _ & H3 & _); fold a in H1, H3;
    rewrite (reduced_energy_R a Za Zb _ Ha Hb) in H1, H3; fold (reduced_energy a Za Zb (E0 * Mb / (Ma + Mb))) in H1, H3; fold e in H1, H3;
    replace (x * a / a) with x in H1, H3 by (field; lra); toR; assumption.
Qed.
Lemma reduced_energy_pos a Za Zb E : 0 < a -> 0 < Za -> 0 < Zb -> 0 < E -> 0 < reduced_energy a Za Zb E.
Proof.
  intros. unfold reduced_energy. pose proof cQ_pos. pose proof cEPS0_pos. pose proof PI_RGT_0.
  apply Rdiv_lt_0_compat; [apply Rmult_lt_0_compat; assumption|].
  apply Rdiv_lt_0_compat; [|assumption]. apply Rdiv_lt_0_compat; [|assumption]. apply Rdiv_lt_0_compat; [|lra].
  apply Rmult_lt_0_compat; [|assumption]. apply Rmult_lt_0_compat; [|assumption]. apply Rmult_lt_0_compat; assumption.
Qed.
(** the root of the scaled equation is the turning point *)
Lemma screened_root_turning Za Zb E p ip x : screened ip -> 0 < Za -> 0 < Zb -> 0 < E -> 0 < x ->
  let a := screening_length Za Zb ip in
  let e := reduced_energy a Za Zb E in
  let V := fun r => Za * Zb * cQ * cQ / 4 / PI / cEPS0 / r * expsum (screening_terms ip) (r / a) in
  (x - expsum (screening_terms ip) x / e - p / a * (p / a) / x = 0 <-> turning_point V E p (x * a)).
Proof.
  intros Hs Ha Hb HE Hx a e V. pose proof (screening_length_pos Za Zb ip Hs Ha Hb) as Hap. fold a in Hap.
  apply (zero_iff x); [lra|]. unfold V. replace (x * a / a) with x by (field; lra).
  unfold e, reduced_energy. pose proof cQ_pos. pose proof cEPS0_pos. pose proof PI_RGT_0.
  set (f := expsum _ _). clearbody f a. field. repeat split; lra.
Qed.
Lemma newton_converges Za Zb Ma Mb E0 p ip n tol :
  screened ip -> 0 < Za -> 0 < Zb -> 0 < Ma -> 0 < Mb -> 0 < E0 -> 0 <= p ->
  let a := screening_length Za Zb ip in
  let E := E0 * Mb / (Ma + Mb) in
  let e := reduced_energy a Za Zb E in
  let V := fun r => Za * Zb * cQ * cQ / 4 / PI / cEPS0 / r * expsum (screening_terms ip) (r / a) in
  0 < p \/ 5 < e -> 0 < tol -> 2 / e < (INR n - 1) * sqrt tol ->
  exists x r, newton_rootfinder Za Zb Ma Mb E0 p ip n tol = Ok (Some x) /\ 0 < x /\
    unique_turning_point V E p r /\ Rabs (x * a - r) <= a * (sqrt tol * (2 + 14/10 / e)).
Proof.
  intros Hs Ha Hb Hma Hmb HE0 Hp a E e V Hpe Htol Hn.
  pose proof (screening_length_pos Za Zb ip Hs Ha Hb) as Hap. fold a in Hap.
  assert (HE : 0 < E) by (apply Rdiv_lt_0_compat; [apply Rmult_lt_0_compat; assumption|lra]).
  pose proof (reduced_energy_pos a Za Zb E Hap Ha Hb HE) as Hep. fold e in Hep.
  assert (Hb0 : 0 <= p / a) by (apply Rle_mult_inv_pos; assumption).
  pose proof (screening_terms_pos ip Hs) as Hl.
  assert (Hc : expsum (screening_terms ip) 0 <= 100008/100000) by (rewrite expsum_0; apply screening_terms_sum; exact Hs).
  assert (H1c : 1 <= expsum (screening_terms ip) 0) by (rewrite expsum_0; apply screening_terms_sum1; exact Hs).
  pose proof (screening_terms_slope ip Hs) as HK.
  rewrite (newton_rootfinder_R Za Zb Ma Mb E0 p ip n tol Hs Ha Hb Hma Hmb HE0). cbv zeta. fold a. fold E. fold e.
  assert (Hres : exists x xs, nl (screening_terms ip) e (p / a) tol n (if Rltb 5 e then 1/2 / e + sqrt ((1/2 / e) * (1/2 / e) + p / a * (p / a)) else p / a) = Some x /\
     0 < x /\ 0 < xs /\ xs - expsum (screening_terms ip) xs / e - p / a * (p / a) / xs = 0 /\ Rabs (x - xs) <= sqrt tol * (2 + 14/10 / e)).
  { unfold Rltb. destruct (Rlt_dec 5 e) as [H5|H5].
    - apply (nl_from_guess _ e (p / a) Hl Hep Hb0 (100008/100000) (14/10) Hc HK H1c); lra.
    - assert (Hpp : 0 < p) by (destruct Hpe; [assumption|contradiction]).
      apply (nl_from_b _ e (p / a) Hl Hep Hb0 (100008/100000) (14/10) Hc HK H1c); try lra. apply Rdiv_lt_0_compat; assumption. }
  destruct Hres as (x & xs & Hx & Hx0 & Hxs & Hz & Herr). exists x, (xs * a). rewrite Hx. split; [reflexivity|]. split; [exact Hx0|]. split.
  - split; [apply Rmult_lt_0_compat; assumption|]. split; [apply (screened_root_turning Za Zb E p ip xs Hs Ha Hb HE Hxs); exact Hz|].
    intros r' Hr' Ht. assert (Hra : 0 < r' / a) by (apply Rdiv_lt_0_compat; assumption).
    assert (Er : r' = r' / a * a) by (field; lra). rewrite Er in Ht.
    apply (screened_root_turning Za Zb E p ip (r' / a) Hs Ha Hb HE Hra) in Ht.
    rewrite Er. f_equal. exact (F_root_unique _ e (p / a) Hl Hep Hb0 _ _ Hra Hxs Ht Hz).
  - replace (x * a - xs * a) with (a * (x - xs)) by ring. rewrite Rabs_mult, (Rabs_right a) by lra.
    apply Rmult_le_compat_l; [lra|exact Herr].
Qed.
Lemma unique_turning_point_screened Za Zb E p ip : screened ip -> 0 < Za -> 0 < Zb -> 0 < E -> 0 <= p ->
  let a := screening_length Za Zb ip in
  let V := fun r => Za * Zb * cQ * cQ / 4 / PI / cEPS0 / r * expsum (screening_terms ip) (r / a) in
  exists r, unique_turning_point V E p r /\ p <= r.
Proof.
  intros Hs Ha Hb HE Hp a V. pose proof (screening_length_pos Za Zb ip Hs Ha Hb) as Hap. fold a in Hap.
  pose proof (reduced_energy_pos a Za Zb E Hap Ha Hb HE) as Hep. set (e := reduced_energy a Za Zb E) in *.
  assert (Hb0 : 0 <= p / a) by (apply Rle_mult_inv_pos; assumption).
  pose proof (screening_terms_pos ip Hs) as Hl.
  assert (Hc : expsum (screening_terms ip) 0 <= 100008/100000) by (rewrite expsum_0; apply screening_terms_sum; exact Hs).
  assert (H1c : 1 <= expsum (screening_terms ip) 0) by (rewrite expsum_0; apply screening_terms_sum1; exact Hs).
  destruct (F_root _ e (p / a) Hl Hep Hb0 (100008/100000) Hc H1c) as (xs & Hxs & Hbx & Hz & _).
  exists (xs * a). split.
  - split; [apply Rmult_lt_0_compat; assumption|]. split; [apply (screened_root_turning Za Zb E p ip xs Hs Ha Hb HE Hxs); exact Hz|].
    intros r' Hr' Ht. assert (Hra : 0 < r' / a) by (apply Rdiv_lt_0_compat; assumption).
    assert (Er : r' = r' / a * a) by (field; lra). rewrite Er in Ht.
    apply (screened_root_turning Za Zb E p ip (r' / a) Hs Ha Hb HE Hra) in Ht.
    rewrite Er. f_equal. exact (F_root_unique _ e (p / a) Hl Hep Hb0 _ _ Hra Hxs Ht Hz).
  - replace p with (p / a * a) by (field; lra). apply Rmult_le_compat_r; lra.
Qed.

(** ** Gauss-Mehler quadrature *)
Definition gm_th (n i : nat) : R := (2 * INR i - 1) / 4 / INR n * PI.
Definition gm_term (p E r0 : R) (v : R -> R) (n i : nat) : R :=
  PI / INR n * sin (gm_th n i) *
  (p / r0 / sqrt (1 - v (r0 / cos (gm_th n i)) / E - (p * cos (gm_th n i) / r0) * (p * cos (gm_th n i) / r0))).
Lemma gauss_mehler_R p E r0 V v n : (forall r, V r = Ok (v r)) ->
  scattering_integral_gauss_mehler p E r0 V n = Ok (PI - Rsum (map (gm_term p E r0 v n) (seq 1 n))).
Proof.
  intros HV. unfold scattering_integral_gauss_mehler.
  assert (H : mapM (fun xw => let! s := scattering_function_gm (fst xw) p r0 E V in Ok (snd xw *! s))
      (zip (map (gm_node n) (seq 1 n)) (map (gm_weight n) (seq 1 n))) = Ok (map (gm_term p E r0 v n) (seq 1 n))).
  { generalize (seq 1 n). induction l as [|i l IH]; [reflexivity|]. cbn [map zip combine mapM fst snd].
    unfold scattering_function_gm at 1. rewrite HV. cbn [bind nis_nan NumR]. unfold zip in IH. rewrite IH. cbn [bind]. f_equal. f_equal.
    unfold gm_weight, gm_node, gm_angle, gm_term, gm_th. toR. reflexivity. }
  unfold zip in H. cbv zeta. unfold zip. rewrite H. cbn [bind]. rewrite nsum_R. reflexivity.
Qed.
Lemma gm_th_range n i : (1 <= i <= n)%nat -> 0 < gm_th n i < PI / 2.
Proof.
  intros Hi. unfold gm_th. pose proof PI_RGT_0. assert (Hn : 0 < INR n) by (apply lt_0_INR; lia).
  assert (H1 : 1 <= INR i) by (change 1 with (INR 1); apply le_INR; lia). assert (H2 : INR i <= INR n) by (apply le_INR; lia).
  assert (0 < (2 * INR i - 1) / 4 / INR n) by (apply Rdiv_lt_0_compat; lra).
  assert ((2 * INR i - 1) / 4 / INR n < 1 / 2).
  { apply Rmult_lt_reg_r with (INR n); [exact Hn|]. replace ((2 * INR i - 1) / 4 / INR n * INR n) with ((2 * INR i - 1) / 4) by (field; lra). lra. }
  split; [apply Rmult_lt_0_compat; assumption|]. replace (PI / 2) with (1 / 2 * PI) by field. apply Rmult_lt_compat_r; assumption.
Qed.
Lemma gm_sc n i : (1 <= i <= n)%nat -> 0 < sin (gm_th n i) /\ 0 < cos (gm_th n i) < 1.
Proof.
  intros Hi. pose proof (gm_th_range n i Hi) as (H1 & H2). pose proof PI_RGT_0.
  assert (Hs : 0 < sin (gm_th n i)) by (apply sin_gt_0; lra). assert (Hc : 0 < cos (gm_th n i)) by (apply cos_gt_0; lra).
  split; [exact Hs|]. split; [exact Hc|]. destruct (Rlt_le_dec (cos (gm_th n i)) 1) as [|Hge]; [assumption|exfalso].
  pose proof (sin2_cos2 (gm_th n i)) as Hsc. unfold Rsqr in Hsc. pose proof (Rmult_lt_0_compat _ _ Hs Hs).
  pose proof (Rmult_le_compat 1 _ 1 _ ltac:(lra) ltac:(lra) Hge Hge). lra.
Qed.
Lemma Rsum_map_const {A} (l : list A) (f : A -> R) w : (forall i, In i l -> f i = w) -> Rsum (map f l) = INR (length l) * w.
Proof.
  induction l as [|i l IH]; intros H; unfold Rsum in *; cbn [map fold_right length]; [cbn; ring|].
  rewrite (H i (or_introl eq_refl)), IH by (intros; apply H; right; assumption). rewrite S_INR. ring.
Qed.
Lemma Rsum_map_le {A} (l : list A) (f g : A -> R) : (forall i, In i l -> f i <= g i) -> Rsum (map f l) <= Rsum (map g l).
Proof.
  induction l as [|i l IH]; intros H; unfold Rsum in *; cbn [map fold_right]; [lra|].
  pose proof (H i (or_introl eq_refl)). assert (fold_right Rplus 0 (map f l) <= fold_right Rplus 0 (map g l)) by (apply IH; intros; apply H; right; assumption). lra.
Qed.
Lemma gm_no_potential n p : (0 < n)%nat -> 0 < p ->
  Rsum (map (gm_term p 1 p (fun _ => 0) n) (seq 1 n)) = PI /\
  forall E, map (gm_term p E p (fun _ => 0) n) (seq 1 n) = map (gm_term p 1 p (fun _ => 0) n) (seq 1 n).
Proof.
  intros Hn Hp. split.
  - rewrite (Rsum_map_const _ _ (PI / INR n)).
    + rewrite seq_length. field. apply not_0_INR. lia.
    + intros i Hi. apply in_seq in Hi. destruct (gm_sc n i ltac:(lia)) as (Hs & Hc). unfold gm_term.
      set (s := sin (gm_th n i)) in *. set (c := cos (gm_th n i)) in *.
      assert (E1 : 1 - 0 / 1 - p * c / p * (p * c / p) = s * s).
      { pose proof (sin2_cos2 (gm_th n i)) as H. unfold Rsqr in H. fold s c in H. replace (p * c / p) with c by (field; lra). lra. }
      rewrite E1, sqrt_square by lra. field. repeat split; try lra. apply not_0_INR. lia.
  - intros E. apply map_ext. intros i. unfold gm_term. unfold Rdiv. rewrite !Rmult_0_l. reflexivity.
Qed.
(** repulsive potential, started at a turning point *)
Lemma gm_radicand (v : R -> R) E p r0 n i : (1 <= i <= n)%nat -> 0 < E -> 0 < p -> 0 < r0 ->
  turning_point v E p r0 -> (forall r, r0 < r -> v r <= v r0) ->
  let c := cos (gm_th n i) in let s := sin (gm_th n i) in
  (p / r0 * s) * (p / r0 * s) <= 1 - v (r0 / c) / E - (p * c / r0) * (p * c / r0).
Proof.
  intros Hi HE Hp Hr Ht Hv c s. destruct (gm_sc n i Hi) as (Hs & Hc). fold s c in Hs, Hc.
  assert (Hrc : r0 < r0 / c). { apply Rmult_lt_reg_r with c; [lra|]. replace (r0 / c * c) with r0 by (field; lra). pose proof (Rmult_lt_compat_l r0 c 1 Hr ltac:(lra)). lra. }
  specialize (Hv _ Hrc). assert (v (r0 / c) / E <= v r0 / E) by (unfold Rdiv; apply Rmult_le_compat_r; [left; apply Rinv_0_lt_compat; exact HE|exact Hv]).
  unfold turning_point in Ht. pose proof (sin2_cos2 (gm_th n i)) as Hsc. unfold Rsqr in Hsc. fold s c in Hsc.
  assert (Eq : p / r0 * s * (p / r0 * s) = p / r0 * (p / r0) - p * c / r0 * (p * c / r0)).
  { assert (s * s = 1 - c * c) by lra. replace (p / r0 * s * (p / r0 * s)) with (p / r0 * (p / r0) * (s * s)) by ring. rewrite H0. field. lra. }
  lra.
Qed.
Lemma gm_angle_range (v : R -> R) E p r0 n : (0 < n)%nat -> 0 < E -> 0 < p -> 0 < r0 ->
  turning_point v E p r0 -> (forall r, r0 < r -> v r <= v r0) ->
  0 <= PI - Rsum (map (gm_term p E r0 v n) (seq 1 n)) <= PI.
Proof.
  intros Hn HE Hp Hr Ht Hv. pose proof PI_RGT_0 as HPI. assert (HnR : 0 < INR n) by (apply lt_0_INR; lia).
  assert (Hpr : 0 < p / r0) by (apply Rdiv_lt_0_compat; assumption).
  assert (Hterm : forall i, In i (seq 1 n) -> 0 <= gm_term p E r0 v n i <= PI / INR n).
  { intros i Hi. apply in_seq in Hi. assert (Hi' : (1 <= i <= n)%nat) by lia. destruct (gm_sc n i Hi') as (Hs & Hc).
    pose proof (gm_radicand v E p r0 n i Hi' HE Hp Hr Ht Hv) as Hrad. cbv zeta in Hrad. unfold gm_term.
    set (s := sin (gm_th n i)) in *. set (c := cos (gm_th n i)) in *. set (rad := 1 - v (r0 / c) / E - _) in *.
    pose proof (Rmult_lt_0_compat _ _ Hpr Hs) as Hps.
    assert (Hsq : p / r0 * s <= sqrt rad). { rewrite <- (sqrt_square (p / r0 * s)) by lra. apply sqrt_le_1_alt. exact Hrad. }
    assert (HPn : 0 < PI / INR n) by (apply Rdiv_lt_0_compat; lra).
    assert (Hq : 0 < p / r0 / sqrt rad) by (apply Rdiv_lt_0_compat; lra).
    pose proof (Rmult_lt_0_compat _ _ HPn Hs). split; [left; apply Rmult_lt_0_compat; assumption|].
    assert (s * (p / r0 / sqrt rad) <= 1).
    { apply Rmult_le_reg_r with (sqrt rad); [lra|]. replace (s * (p / r0 / sqrt rad) * sqrt rad) with (p / r0 * s) by (field; split; lra). lra. }
    pose proof (Rmult_le_compat_l (PI / INR n) _ 1 ltac:(lra) H0). lra. }
  assert (H1 : 0 <= Rsum (map (gm_term p E r0 v n) (seq 1 n))).
  { replace 0 with (Rsum (map (fun _ : nat => 0) (seq 1 n))). 2: { rewrite (Rsum_map_const _ _ 0) by reflexivity. ring. }
    apply Rsum_map_le. intros i Hi. apply Hterm. exact Hi. }
  assert (H2 : Rsum (map (gm_term p E r0 v n) (seq 1 n)) <= PI).
  { apply Rle_trans with (Rsum (map (fun _ : nat => PI / INR n) (seq 1 n))); [apply Rsum_map_le; intros i Hi; apply Hterm; exact Hi|].
    right. rewrite (Rsum_map_const _ _ (PI / INR n)) by reflexivity. rewrite seq_length. field. lra. }
  lra.
Qed.
Lemma screened_decreasing Za Zb a ip : screened ip -> 0 < Za -> 0 < Zb -> 0 < a ->
  let V := fun r => Za * Zb * cQ * cQ / 4 / PI / cEPS0 / r * expsum (screening_terms ip) (r / a) in
  forall r r', 0 < r -> r < r' -> 0 < V r' /\ V r' < V r.
Proof.
  intros Hs Ha Hb Hap V r r' Hr Hrr. unfold V. pose proof cQ_pos. pose proof cEPS0_pos. pose proof PI_RGT_0.
  pose proof (screening_terms_pos ip Hs) as Hl.
  assert (Hk : 0 < Za * Zb * cQ * cQ / 4 / PI / cEPS0).
  { apply Rdiv_lt_0_compat; [|assumption]. apply Rdiv_lt_0_compat; [|assumption]. apply Rdiv_lt_0_compat; [|lra].
    apply Rmult_lt_0_compat; [|assumption]. apply Rmult_lt_0_compat; [|assumption]. apply Rmult_lt_0_compat; assumption. }
  set (k := Za * Zb * cQ * cQ / 4 / PI / cEPS0) in *. clearbody k.
  pose proof (expsum_pos _ (r' / a) Hl) as Hp'.
  assert (Hd : expsum (screening_terms ip) (r' / a) < expsum (screening_terms ip) (r / a)).
  { apply expsum_decr; [exact Hl|]. unfold Rdiv. apply Rmult_lt_compat_r; [apply Rinv_0_lt_compat; exact Hap|exact Hrr]. }
  assert (Hkr : k / r' < k / r). { unfold Rdiv. apply Rmult_lt_compat_l; [exact Hk|]. apply Rinv_lt_contravar; [apply Rmult_lt_0_compat; lra|exact Hrr]. }
  assert (0 < k / r') by (apply Rdiv_lt_0_compat; lra).
  split; [apply Rmult_lt_0_compat; assumption|]. apply Rmult_gt_0_lt_compat; lra.
Qed.
