(** * ProofsClassical.v - the classical integral exists and midpoint sums converge to it *)
From Coquelicot Require Import Coquelicot.
From Coq Require Import ZArith List Bool Lia Reals Lra.
From Verif Require Import Num ModelTypes ModelConsts ModelInteractions ModelBca ProofsBase NumR SpecR SpecCollision SpecAngle SpecClassical
  ProofsInteractions ProofsNewton ProofsCollision PropertiesCollision ProofsAngle.
Import ListNotations.
Open Scope nat_scope.
Open Scope R_scope.

(** ** midpoint sums *)
Definition midpoint (g : R -> R) (h : R) (k : nat) : R := Rsum (map (fun i => h * g ((INR i - 1 / 2) * h)) (seq 1 k)).
Lemma Rsum_app l l' : Rsum (l ++ l') = Rsum l + Rsum l'.
Proof. induction l as [|y l IH]; unfold Rsum in *; cbn [app fold_right]; [ring|]. rewrite IH. ring. Qed.
Lemma midpoint_S g h k : midpoint g h (S k) = midpoint g h k + h * g ((INR k + 1 / 2) * h).
Proof.
  unfold midpoint. rewrite seq_S, map_app, Rsum_app. cbn [map]. replace (1 + k)%nat with (S k) by lia. rewrite S_INR.
  unfold Rsum. cbn [fold_right]. replace (INR k + 1 - 1 / 2) with (INR k + 1 / 2) by lra. ring.
Qed.
Lemma cont_int (g : R -> R) : (forall c, continuous g c) -> forall s t, ex_RInt g s t.
Proof. intros H s t. apply (ex_RInt_continuous (V := R_CompleteNormedModule) g). intros z _. apply H. Qed.
Lemma midpoint_error (g : R -> R) h e n : (forall c, continuous g c) -> 0 < h -> INR n * h <= 1 ->
  (forall u v, 0 <= u <= 1 -> 0 <= v <= 1 -> Rabs (u - v) <= h -> Rabs (g u - g v) <= e) ->
  forall k, (k <= n)%nat -> Rabs (midpoint g h k - RInt g 0 (INR k * h)) <= INR k * h * e.
Proof.
  intros Hc Hh Hn He. induction k as [|k IH]; intros Hk.
  - cbn [INR]. rewrite Rmult_0_l. rewrite RInt_point. unfold midpoint, Rsum, zero. cbn. rewrite Rminus_0_r, Rabs_R0. lra.
  - specialize (IH ltac:(lia)). rewrite midpoint_S.
    pose proof (cont_int g Hc) as Hi.
    assert (K0 : 0 <= INR k) by apply pos_INR.
    assert (K1 : INR (S k) * h <= 1). { eapply Rle_trans; [|exact Hn]. apply Rmult_le_compat_r; [lra|]. apply le_INR. exact Hk. }
    rewrite S_INR in *. pose proof (Rmult_le_pos _ _ K0 (Rlt_le _ _ Hh)) as K2.
    rewrite <- (RInt_Chasles (V := R_CompleteNormedModule) g 0 (INR k * h) ((INR k + 1) * h)) by apply Hi. change plus with Rplus.
    assert (D : Rabs (RInt g (INR k * h) ((INR k + 1) * h) - h * g ((INR k + 1 / 2) * h)) <= h * e).
    { assert (C : RInt (fun _ => g ((INR k + 1 / 2) * h)) (INR k * h) ((INR k + 1) * h) = h * g ((INR k + 1 / 2) * h)).
      { rewrite RInt_const. unfold scal; cbn. unfold mult; cbn. ring. }
      rewrite <- C. assert (Hi2 : ex_RInt (fun _ : R => g ((INR k + 1 / 2) * h)) (INR k * h) ((INR k + 1) * h)) by apply ex_RInt_const.
      assert (M : RInt (fun y => g y - g ((INR k + 1 / 2) * h)) (INR k * h) ((INR k + 1) * h) =
        RInt g (INR k * h) ((INR k + 1) * h) - RInt (fun _ => g ((INR k + 1 / 2) * h)) (INR k * h) ((INR k + 1) * h))
        by exact (RInt_minus (V := R_CompleteNormedModule) g (fun _ => g ((INR k + 1 / 2) * h)) (INR k * h) ((INR k + 1) * h) (Hi _ _) Hi2).
      rewrite <- M.
      replace (h * e) with (((INR k + 1) * h - INR k * h) * e) by ring.
      apply abs_RInt_le_const; [lra| |].
      - apply (ex_RInt_minus (V := R_NormedModule) g (fun _ => g ((INR k + 1 / 2) * h))); [apply Hi|exact Hi2].
      - intros t Ht. apply He; [lra|lra|]. apply Rabs_le. lra. }
    apply Rabs_le_between in IH. apply Rabs_le_between in D. apply Rabs_le. lra.
Qed.
Lemma midpoint_converges (g : R -> R) : (forall c, continuous g c) ->
  forall e, 0 < e -> exists n0, (0 < n0)%nat /\ forall n, (n0 <= n)%nat -> Rabs (midpoint g (/ INR n) n - RInt g 0 1) <= e.
Proof.
  intros Hc e He. destruct (unifcont_1d g 0 1 (fun c _ => Hc c) (mkposreal e He)) as (d & Hd).
  destruct (archimed_cor1 (d / 1) ltac:(apply Rdiv_lt_0_compat; [apply cond_pos|lra])) as (n0 & H1 & H2). exists n0. split; [exact H2|]. intros n Hn.
  assert (N0 : 0 < INR n0) by (apply lt_0_INR; exact H2). assert (N1 : INR n0 <= INR n) by (apply le_INR; exact Hn).
  assert (N2 : / INR n <= / INR n0) by (apply Rinv_le_contravar; assumption).
  assert (N3 : 0 < / INR n) by (apply Rinv_0_lt_compat; lra).
  pose proof (midpoint_error g (/ INR n) e n Hc N3 ltac:(rewrite Rinv_r by lra; lra)) as M.
  specialize (M (fun u v Hu Hv Huv => ltac:(
    destruct (Rle_lt_dec (Rabs (g u - g v)) e) as [L|L]; [exact L|exfalso];
    apply (Hd u v Hu Hv); [unfold ball; cbn; unfold AbsRing_ball, abs, minus, plus, opp; cbn; rewrite Rabs_minus_sym in Huv; unfold Rminus in Huv; lra|];
    unfold ball; cbn; unfold AbsRing_ball, abs, minus, plus, opp; cbn; rewrite Rabs_minus_sym in L; unfold Rminus in L; lra)) n (le_n n)).
  rewrite Rinv_r in M by lra. lra.
Qed.

Lemma crinv (f : R -> R) y : continuous f y -> f y <> 0 -> continuous (fun t => / f t) y.
Proof. intros H1 H2. apply (continuous_comp f Rinv); [exact H1|apply continuous_Rinv; exact H2]. Qed.
(** ** the transformed integral *)
Section Classical.
  Context (V : R -> R) (E p r0 l0 l1 : R) (Hp : 0 < p) (Hr : 0 < r0)
    (HC : forall r, r0 < r -> continuous V r) (HR : forall u, 0 < u < 1 -> 0 < radial V E p r0 u)
    (H0 : filterlim (flight V E p r0) (at_right 0) (locally l0)) (H1 : filterlim (flight V E p r0) (at_left 1) (locally l1)).
  Lemma cl_trig y : 0 < y < 1 -> 0 < cos (PI / 2 * y) < 1 /\ 0 < sin (PI / 2 * y).
  Proof.
    intro Hy. pose proof PI_RGT_0 as HP. assert (T1 : 0 < PI / 2 * y) by (apply Rmult_lt_0_compat; lra).
    assert (T2 : PI / 2 * y < PI / 2 * 1) by (apply Rmult_lt_compat_l; lra).
    assert (C0 : 0 < cos (PI / 2 * y)) by (apply cos_gt_0; lra).
    assert (C1 : cos (PI / 2 * y) < cos 0) by (apply cos_decreasing_1; lra). rewrite cos_0 in C1.
    assert (S0 : 0 < sin (PI / 2 * y)) by (apply sin_gt_0; lra). lra.
  Qed.
  Lemma cl_far u : 0 < u < 1 -> r0 < r0 / u.
  Proof.
    intro Hu. apply Rmult_lt_reg_r with u; [lra|]. replace (r0 / u * u) with r0 by (field; lra).
    rewrite <- (Rmult_1_r r0) at 2. apply Rmult_lt_compat_l; lra.
  Qed.
  Lemma cl_flight_cont y : 0 < y < 1 -> continuous (flight V E p r0) y.
  Proof.
    intro Hy. destruct (cl_trig y Hy) as (C0 & S0). unfold flight.
    apply (continuous_mult (fun t => sin (PI / 2 * t)) (fun t => / sqrt (radial V E p r0 (cos (PI / 2 * t))))).
    - apply (ex_derive_continuous (fun t => sin (PI / 2 * t))). auto_derive. exact I.
    - assert (Cc : continuous (fun t => cos (PI / 2 * t)) y) by (apply (ex_derive_continuous (fun t => cos (PI / 2 * t))); auto_derive; exact I).
      apply crinv.
      + apply (continuous_comp (fun t => radial V E p r0 (cos (PI / 2 * t))) sqrt); [|apply continuous_sqrt]. unfold radial.
        apply (continuous_minus (fun t => 1 - V (r0 / cos (PI / 2 * t)) / E) (fun t => p * cos (PI / 2 * t) / r0 * (p * cos (PI / 2 * t) / r0))).
        * apply (continuous_minus (fun _ => 1) (fun t => V (r0 / cos (PI / 2 * t)) / E)); [apply continuous_const|].
          apply (continuous_mult (fun t => V (r0 / cos (PI / 2 * t))) (fun _ => / E)); [|apply continuous_const].
          apply (continuous_comp (fun t => r0 / cos (PI / 2 * t)) V).
          -- apply (continuous_mult (fun _ => r0) (fun t => / cos (PI / 2 * t))); [apply continuous_const|]. apply crinv; [exact Cc|lra].
          -- apply HC, cl_far. exact C0.
        * apply (ex_derive_continuous (fun t => p * cos (PI / 2 * t) / r0 * (p * cos (PI / 2 * t) / r0))). auto_derive. lra.
      + apply Rgt_not_eq. apply sqrt_lt_R0, HR. exact C0.
  Qed.
  Lemma cl_extend : exists g : R -> R, (forall c, continuous g c) /\ (forall c, 0 < c < 1 -> g c = flight V E p r0 c) /\ g 0 = l0 /\ g 1 = l1.
  Proof.
    destruct (C0_extension_lt (T := R_UniformSpace) (flight V E p r0) l0 l1 0 1 Rlt_0_1 (fun c Hc => cl_flight_cont c Hc) H0 H1) as (g & G1 & G2 & G3).
    exists g. split; [exact G1|]. split; [exact G2|exact G3].
  Qed.
  Lemma cl_param r : r0 < r -> exists s, 0 < s < 1 /\ r = r0 / cos (PI / 2 * s).
  Proof.
    intro H. pose proof PI_RGT_0 as HP. exists (2 / PI * acos (r0 / r)).
    assert (B : 0 < r0 / r < 1).
    { split; [apply Rdiv_lt_0_compat; lra|]. apply Rmult_lt_reg_r with r; [lra|]. replace (r0 / r * r) with r0 by (field; lra). lra. }
    pose proof (acos_bound (r0 / r)) as AB. pose proof (cos_acos (r0 / r) ltac:(lra)) as CA.
    assert (A1 : 0 < acos (r0 / r)).
    { destruct (Req_dec (acos (r0 / r)) 0) as [Z|Z]; [|lra]. rewrite Z, cos_0 in CA. lra. }
    assert (A2 : acos (r0 / r) < PI / 2).
    { destruct (Rlt_le_dec (acos (r0 / r)) (PI / 2)) as [L|L]; [exact L|exfalso].
      assert (cos (acos (r0 / r)) <= cos (PI / 2)) by (apply cos_decr_1; lra). rewrite cos_PI2, CA in H2. lra. }
    assert (A3 : PI / 2 * (2 / PI * acos (r0 / r)) = acos (r0 / r)) by (field; lra).
    split.
    - split; [apply Rmult_lt_0_compat; [apply Rdiv_lt_0_compat; lra|exact A1]|].
      apply Rmult_lt_reg_l with (PI / 2); [lra|]. rewrite A3. lra.
    - rewrite A3, CA. field. lra.
  Qed.
  Lemma cl_mono s t : 0 < s < 1 -> 0 < t < 1 -> r0 / cos (PI / 2 * s) < r0 / cos (PI / 2 * t) -> s < t.
  Proof.
    intros Hs Ht H. pose proof PI_RGT_0 as HP. destruct (Rlt_le_dec s t) as [L|L]; [exact L|exfalso].
    destruct (cl_trig s Hs) as ((C0 & _) & _). destruct (cl_trig t Ht) as ((C1 & _) & _).
    assert (A : PI / 2 * t <= PI / 2 * s) by (apply Rmult_le_compat_l; lra).
    assert (A1 : PI / 2 * s < PI / 2 * 1) by (apply Rmult_lt_compat_l; lra). assert (A0 : 0 < PI / 2 * t) by (apply Rmult_lt_0_compat; lra).
    assert (B : cos (PI / 2 * s) <= cos (PI / 2 * t)) by (apply cos_decr_1; lra).
    assert (D : / cos (PI / 2 * t) <= / cos (PI / 2 * s)) by (apply Rinv_le_contravar; assumption).
    pose proof (Rmult_le_compat_l r0 _ _ ltac:(lra) D). unfold Rdiv in H. lra.
  Qed.
  Lemma cl_density_int x y : r0 < x -> x <= y -> ex_RInt (scattering_density V E p) x y.
  Proof.
    intros Hx Hxy. apply (ex_RInt_continuous (V := R_CompleteNormedModule) (scattering_density V E p)). intros z Hz. rewrite Rmin_left, Rmax_right in Hz by exact Hxy.
    assert (Hz' : r0 < z) by lra. destruct (cl_param z Hz') as (s & Hs & Ez). destruct (cl_trig s Hs) as (C0 & S0).
    pose proof (HR _ C0) as Q. unfold radial in Q. rewrite <- Ez in Q.
    assert (Q2 : 0 < 1 - V z / E - p / z * (p / z)).
    { replace (p / z) with (p * cos (PI / 2 * s) / r0) by (rewrite Ez; field; lra). exact Q. }
    unfold scattering_density. apply (continuous_mult (fun _ => 2 * p) (fun r => / (r * r * sqrt (1 - V r / E - p / r * (p / r))))); [apply continuous_const|].
    apply crinv.
    - apply (continuous_mult (fun r => r * r) (fun r => sqrt (1 - V r / E - p / r * (p / r)))).
      + apply (ex_derive_continuous (fun r => r * r)). auto_derive. exact I.
      + apply (continuous_comp (fun r => 1 - V r / E - p / r * (p / r)) sqrt); [|apply continuous_sqrt].
        apply (continuous_minus (fun t => 1 - V t / E) (fun t => p / t * (p / t))).
        * apply (continuous_minus (fun _ => 1) (fun t => V t / E)); [apply continuous_const|].
          apply (continuous_mult V (fun _ => / E)); [apply HC; exact Hz'|apply continuous_const].
        * apply (ex_derive_continuous (fun t => p / t * (p / t))). auto_derive. repeat split; lra.
    - apply Rgt_not_eq. apply Rmult_lt_0_compat; [apply Rmult_lt_0_compat; lra|]. apply sqrt_lt_R0. exact Q2.
  Qed.
  Lemma cl_exists (g : R -> R) : (forall c, continuous g c) -> (forall c, 0 < c < 1 -> g c = flight V E p r0 c) ->
    is_RInt_gen (scattering_density V E p) (at_right r0) (Rbar_locally p_infty) (PI * p / r0 * RInt g 0 1).
  Proof.
    intros Gc Ge. pose proof (cont_int g Gc) as Gi. pose proof PI_RGT_0 as HP.
    assert (B : exists M, 0 < M /\ forall t, 0 <= t <= 1 -> Rabs (g t) <= M).
    { destruct (continuity_ab_maj (fun t => Rabs (g t)) 0 1 Rle_0_1) as (m & Hm & _).
      - intros c Hc. apply continuity_pt_filterlim. apply (continuous_comp g Rabs); [apply Gc|apply continuous_Rabs].
      - exists (Rabs (g m) + 1). split; [pose proof (Rabs_pos (g m)); lra|]. intros t Ht. specialize (Hm t Ht). cbv beta in Hm. lra. }
    destruct B as (M & HM & HB). set (k := PI * p / r0). assert (Hk : 0 < k) by (apply Rdiv_lt_0_compat; [apply Rmult_lt_0_compat|]; assumption).
    intros P (eps & HPe). unfold filtermapi.
    set (d := Rmin (1 / 4) (eps / (4 * M * k))).
    assert (MK : 0 < 4 * M * k) by (apply Rmult_lt_0_compat; lra).
    assert (Hd : 0 < d) by (apply Rmin_pos; [lra|apply Rdiv_lt_0_compat; [apply cond_pos|exact MK]]).
    assert (Hd4 : d <= 1 / 4) by apply Rmin_l.
    assert (Hde : 4 * M * k * d <= eps).
    { apply Rle_trans with (4 * M * k * (eps / (4 * M * k))); [apply Rmult_le_compat_l; [lra|apply Rmin_r]|]. right. field. split; lra. }
    destruct (cl_trig d ltac:(lra)) as (Cd & _). destruct (cl_trig (1 - d) ltac:(lra)) as (Ce & _).
    exists (fun x => r0 < x /\ x < r0 / cos (PI / 2 * d)) (fun y => r0 / cos (PI / 2 * (1 - d)) < y).
    - pose proof (cl_far _ Cd) as F. exists (mkposreal (r0 / cos (PI / 2 * d) - r0) ltac:(lra)). intros x Hx1 Hx0.
      unfold ball in Hx1; cbn in Hx1. unfold AbsRing_ball, abs, minus, plus, opp in Hx1; cbn in Hx1. apply Rabs_def2 in Hx1. lra.
    - exists (r0 / cos (PI / 2 * (1 - d))). intros y Hy. exact Hy.
    - intros x y (Hx0 & Hx1) Hy. cbn [fst snd]. pose proof (cl_far _ Ce) as F.
      destruct (cl_param x Hx0) as (s & Hs & Ex). destruct (cl_param y ltac:(lra)) as (t & Ht & Ey).
      assert (Sd : s < d) by (apply cl_mono; [exact Hs|lra|rewrite <- Ex; exact Hx1]).
      assert (Td : 1 - d < t) by (apply cl_mono; [lra|exact Ht|rewrite <- Ey; exact Hy]).
      exists (k * RInt g s t).
      assert (Hxy : x <= y).
      { destruct (Rle_lt_dec x y) as [L|L]; [exact L|exfalso]. rewrite Ex, Ey in L. pose proof (cl_mono t s Ht Hs L). lra. }
      split.
      + replace (k * RInt g s t) with (RInt (scattering_density V E p) x y); [apply (RInt_correct (V := R_CompleteNormedModule) (scattering_density V E p)), cl_density_int; assumption|].
        rewrite Ex, Ey. rewrite (substitution V E p r0 Hr HC HR s t) by lra. fold k. f_equal. apply RInt_ext. intros z Hz.
        rewrite Rmin_left, Rmax_right in Hz by lra. symmetry. apply Ge. lra.
      + apply HPe. change (Rabs (k * RInt g s t + - (k * RInt g 0 1)) < eps).
        pose proof (RInt_Chasles (V := R_CompleteNormedModule) g 0 s t (Gi _ _) (Gi _ _)) as Q1. pose proof (RInt_Chasles (V := R_CompleteNormedModule) g 0 t 1 (Gi _ _) (Gi _ _)) as Q2. change plus with Rplus in Q1, Q2.
        pose proof (abs_RInt_le_const g 0 s M ltac:(lra) (Gi _ _) (fun z Hz => HB z ltac:(lra))) as B1.
        pose proof (abs_RInt_le_const g t 1 M ltac:(lra) (Gi _ _) (fun z Hz => HB z ltac:(lra))) as B2.
        replace (k * RInt g s t + - (k * RInt g 0 1)) with (- (k * (RInt g 0 s + RInt g t 1))) by (rewrite <- Q2, <- Q1; ring).
        rewrite Rabs_Ropp, Rabs_mult, (Rabs_pos_eq k) by lra.
        assert (T : Rabs (RInt g 0 s + RInt g t 1) <= 2 * M * d).
        { eapply Rle_trans; [apply Rabs_triang|]. assert ((s - 0) * M <= d * M) by (apply Rmult_le_compat_r; lra). assert ((1 - t) * M <= d * M) by (apply Rmult_le_compat_r; lra). lra. }
        pose proof (Rmult_le_compat_l k _ _ ltac:(lra) T).
        assert (0 < M * k * d) by (apply Rmult_lt_0_compat; [apply Rmult_lt_0_compat|]; assumption). lra.
  Qed.
  Lemma cl_terms (g : R -> R) n : (0 < n)%nat -> (forall c, 0 < c < 1 -> g c = flight V E p r0 c) ->
    Rsum (map (gm_term p E r0 V n) (seq 1 n)) = PI * p / r0 * midpoint g (/ INR n) n.
  Proof.
    intros Hn Ge. unfold midpoint. assert (N0 : 0 < INR n) by (apply lt_0_INR; exact Hn).
    assert (Q : forall l, (forall i, In i l -> (1 <= i <= n)%nat) -> Rsum (map (gm_term p E r0 V n) l) = PI * p / r0 * Rsum (map (fun i => / INR n * g ((INR i - 1 / 2) * / INR n)) l)).
    { induction l as [|i l IH]; intro Hl; unfold Rsum in *; cbn [map fold_right]; [ring|].
      rewrite IH by (intros j Hj; apply Hl; right; exact Hj). rewrite Rmult_plus_distr_l. f_equal.
      assert (Hi : (1 <= i <= n)%nat) by (apply Hl; left; reflexivity).
      assert (I1 : 1 <= INR i) by (change 1 with (INR 1); apply le_INR; lia). assert (I2 : INR i <= INR n) by (apply le_INR; lia).
      assert (N1 : 0 < / INR n) by (apply Rinv_0_lt_compat; exact N0).
      rewrite Ge.
      - unfold flight. replace (PI / 2 * ((INR i - 1 / 2) * / INR n)) with (gm_th n i) by (unfold gm_th; field; lra).
        unfold gm_term, radial. unfold Rdiv. ring.
      - split; [apply Rmult_lt_0_compat; lra|]. apply Rlt_le_trans with (INR n * / INR n); [apply Rmult_lt_compat_r; lra|]. rewrite Rinv_r by lra. lra. }
    apply Q. intros i Hi. apply in_seq in Hi. lia.
  Qed.
  Theorem cl_converges : exists theta, classical_angle V E p r0 theta /\
    forall e, 0 < e -> exists n0, (0 < n0)%nat /\ forall n, (n0 <= n)%nat -> Rabs (PI - Rsum (map (gm_term p E r0 V n) (seq 1 n)) - theta) < e.
  Proof.
    destruct cl_extend as (g & Gc & Ge & _). pose proof PI_RGT_0 as HP.
    assert (Hk : 0 < PI * p / r0) by (apply Rdiv_lt_0_compat; [apply Rmult_lt_0_compat|]; assumption).
    exists (PI - PI * p / r0 * RInt g 0 1). split.
    - unfold classical_angle. replace (PI - (PI - PI * p / r0 * RInt g 0 1)) with (PI * p / r0 * RInt g 0 1) by ring. apply cl_exists; assumption.
    - intros e He. destruct (midpoint_converges g Gc (e / 2 / (PI * p / r0))) as (n0 & N0 & N).
      { apply Rdiv_lt_0_compat; lra. }
      exists n0. split; [exact N0|]. intros n Hn. rewrite (cl_terms g n ltac:(lia) Ge). specialize (N n Hn).
      replace (PI - PI * p / r0 * midpoint g (/ INR n) n - (PI - PI * p / r0 * RInt g 0 1)) with (- (PI * p / r0 * (midpoint g (/ INR n) n - RInt g 0 1))) by ring.
      rewrite Rabs_Ropp, Rabs_mult, (Rabs_pos_eq (PI * p / r0)) by lra. pose proof (Rmult_le_compat_l _ _ _ (Rlt_le _ _ Hk) N) as Q.
      replace (PI * p / r0 * (e / 2 / (PI * p / r0))) with (e / 2) in Q by (field; repeat split; lra). lra.
  Qed.
End Classical.
