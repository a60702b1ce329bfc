(** * ProofsKinematics.v - deflection, free flight, refraction in exact arithmetic *)
From Coq Require Import ZArith List Bool Reals Lra Lia Nsatz.
From Verif Require Import Num NumR ModelTypes ModelConsts ModelParticle ModelInteractions ModelGeometry
  ModelMaterial ModelBca Spec SpecR ProofsBase ProofsBca ProofsStep.
Import ListNotations.
Open Scope R_scope.

Lemma sc1 x : sin x * sin x + cos x * cos x = 1.
Proof. pose proof (sin2_cos2 x) as H. unfold Rsqr in H. exact H. Qed.

(** the direction before normalisation *)
Definition raw_rotate (d : Vector R) (psi phi : R) : Vector R :=
  let a := sqrt (1 - vx d * vx d) in
  mkV (cos psi * vx d + sin psi * cos phi * a)
      (cos psi * vy d - sin psi / a * (cos phi * vx d * vy d - sin phi * vz d))
      (cos psi * vz d - sin psi / a * (cos phi * vx d * vz d + sin phi * vy d)).

Lemma raw_rotate_unit d psi phi :
  is_unit d -> off_axis d -> is_unit (raw_rotate d psi phi) /\ vdot d (raw_rotate d psi phi) = cos psi.
Proof.
  intros Hu Hx. unfold is_unit, vdot, off_axis in *. destruct d as [x y z]. simpl in *.
  assert (Hx2 : 0 < 1 - x * x).
  { apply Rabs_def2 in Hx. nra. }
  pose proof (sqrt_lt_R0 _ Hx2) as Ha.
  pose proof (sqrt_sqrt (1 - x * x) (Rlt_le _ _ Hx2)) as Ha2.
  set (a := sqrt (1 - x * x)) in *.
  pose proof (sc1 psi) as Hp. pose proof (sc1 phi) as Hf.
  set (s := sin psi) in *. set (c := cos psi) in *. set (sf := sin phi) in *. set (cf := cos phi) in *.
  assert (Hi : a * / a = 1) by (field; lra). unfold Rdiv.
  set (i := / a) in *. clearbody a i s c sf cf.
  assert (Hyz : y * y + z * z = a * a) by lra.
  split.
  - transitivity (c * c * (x * x + y * y + z * z)
      + s * s * (cf * cf * (a * a) + i * i * ((cf * cf * (x * x) + sf * sf) * (y * y + z * z)))
      + 2 * c * s * cf * x * (a - i * (y * y + z * z))); [ring|].
    rewrite Hu, Hyz.
    transitivity (c * c + s * s * (cf * cf * (a * a) + (a * i) * (a * i) * (cf * cf * (x * x) + sf * sf))
      + 2 * c * s * cf * x * (a - a * (a * i))); [ring|].
    rewrite Hi. rewrite Ha2.
    transitivity (c * c + s * s * (sf * sf + cf * cf)); [ring|]. rewrite Hf. lra.
  - transitivity (c * (x * x + y * y + z * z) + s * cf * x * (a - i * (y * y + z * z))); [ring|].
    rewrite Hu, Hyz. transitivity (c + s * cf * x * (a - a * (a * i))); [ring|]. rewrite Hi. ring.
Qed.

Lemma normalize_unit v : is_unit v -> v_normalize v = v.
Proof.
  unfold is_unit, vdot, v_normalize, v_magnitude. intros H. toR. rewrite H, sqrt_1.
  destruct v; simpl. f_equal; field.
Qed.

Lemma rotate_dir_raw d psi phi :
  is_unit d -> off_axis d -> rotate_dir d psi phi = raw_rotate d psi phi.
Proof.
  intros Hu Hx. unfold rotate_dir, v_assign. toR.
  change (v_normalize (raw_rotate d psi phi) = raw_rotate d psi phi).
  apply normalize_unit. apply raw_rotate_unit; assumption.
Qed.

(** ** atan2 *)
Lemma atan2_sin_cos y x : x <> 0 \/ y <> 0 ->
  let r := sqrt (x * x + y * y) in
  0 < r /\ r * r = x * x + y * y /\ cos (Ratan2 y x) = x / r /\ sin (Ratan2 y x) = y / r.
Proof.
  intros Hn r.
  assert (Hp : 0 < x * x + y * y).
  { destruct Hn as [H|H]; [pose proof (Rsqr_pos_lt _ H) as P|pose proof (Rsqr_pos_lt _ H) as P];
      unfold Rsqr in P; nra. }
  assert (Hr : 0 < r) by (apply sqrt_lt_R0; exact Hp).
  assert (Hrr : r * r = x * x + y * y) by (apply sqrt_sqrt; lra).
  assert (Hx : forall s, x = s -> 0 < s -> sqrt (1 + (y / x)²) = r / s).
  { intros s Hs Hs0. apply sqrt_lem_1.
    - apply Rplus_le_le_0_compat; [lra|apply Rle_0_sqr].
    - apply Rlt_le, Rdiv_lt_0_compat; lra.
    - unfold Rsqr. subst s. replace (r / x * (r / x)) with ((r * r) / (x * x)) by (field; lra).
      rewrite Hrr. field. lra. }
  assert (Hx' : x < 0 -> sqrt (1 + (y / x)²) = - (r / x)).
  { intros Hs. apply sqrt_lem_1.
    - apply Rplus_le_le_0_compat; [lra|apply Rle_0_sqr].
    - apply Rlt_le. rewrite <- Ropp_0. apply Ropp_lt_contravar.
      unfold Rdiv. pose proof (Rinv_lt_0_compat _ Hs). nra.
    - unfold Rsqr. replace (- (r / x) * - (r / x)) with ((r * r) / (x * x)) by (field; lra).
      rewrite Hrr. field. lra. }
  repeat split; try assumption; unfold Ratan2.
  - destruct (Rlt_dec 0 x) as [H0|H0].
    + rewrite cos_atan, (Hx x) by auto. field. lra.
    + destruct (Rlt_dec x 0) as [H1|H1].
      * destruct (Rle_dec 0 y); [rewrite neg_cos|replace (atan (y / x) - PI) with (- (PI - atan (y / x))) by ring; rewrite cos_neg, Rtrigo_facts.cos_pi_minus];
          rewrite cos_atan, Hx' by auto; field; split; lra.
      * assert (x = 0) by lra. subst x. unfold Rdiv. rewrite Rmult_0_l.
        destruct (Rlt_dec 0 y); [apply cos_PI2|].
        destruct (Rlt_dec y 0); [|exfalso; lra].
        replace (- PI * / 2) with (- (PI / 2)) by field. rewrite cos_neg. apply cos_PI2.
  - destruct (Rlt_dec 0 x) as [H0|H0].
    + rewrite sin_atan, (Hx x) by auto. field. lra.
    + destruct (Rlt_dec x 0) as [H1|H1].
      * destruct (Rle_dec 0 y); [rewrite neg_sin|replace (atan (y / x) - PI) with (- (PI - atan (y / x))) by ring; rewrite sin_neg, Rtrigo_facts.sin_pi_minus];
          rewrite sin_atan, Hx' by auto; field; split; lra.
      * assert (x = 0) by lra. subst x. 
        destruct (Rlt_dec 0 y) as [Hy|Hy].
        -- rewrite sin_PI2. assert (Hry : r = y); [|rewrite Hry; field; lra].
           unfold r. replace (0 * 0 + y * y) with (y * y) by ring. apply sqrt_square. lra.
        -- destruct (Rlt_dec y 0) as [Hy'|Hy']; [|exfalso; lra].
           replace (- PI / 2) with (- (PI / 2)) by field. rewrite sin_neg, sin_PI2.
           assert (r = - y); [|apply Rmult_eq_reg_r with r; [|lra]; replace (y / r * r) with y by (field; lra); lra].
           unfold r. replace (0 * 0 + y * y) with ((- y) * (- y)) by ring. apply sqrt_square. lra.
Qed.
Lemma atan2_range y x : 0 <= y -> 0 <= Ratan2 y x <= PI.
Proof.
  intros Hy. pose proof PI_RGT_0 as Hpi. unfold Ratan2.
  destruct (Rlt_dec 0 x) as [H0|H0].
  - pose proof (atan_bound (y / x)) as [Hb1 Hb2]. split; [|lra].
    assert (0 <= y / x). { unfold Rdiv. apply Rmult_le_pos; [exact Hy|]. apply Rlt_le, Rinv_0_lt_compat; exact H0. }
    destruct (Rle_lt_or_eq_dec _ _ H) as [H1|H1].
    + rewrite <- atan_0. apply Rlt_le, atan_increasing. exact H1.
    + rewrite <- H1, atan_0. lra.
  - destruct (Rlt_dec x 0) as [H1|H1].
    + destruct (Rle_dec 0 y) as [_|Hc]; [|contradiction].
      pose proof (atan_bound (y / x)) as [Hb1 Hb2]. split; [lra|].
      assert (y / x <= 0).
      { unfold Rdiv. rewrite <- (Rmult_0_r y). apply Rmult_le_compat_l; [exact Hy|]. apply Rlt_le, Rinv_lt_0_compat; exact H1. }
      assert (atan (y / x) <= 0).
      { rewrite <- atan_0. destruct (Rle_lt_or_eq_dec _ _ H) as [H2|H2]; [apply Rlt_le, atan_increasing; exact H2|rewrite H2; lra]. }
      lra.
    + destruct (Rlt_dec 0 y); [lra|]. destruct (Rlt_dec y 0); lra.
Qed.
Lemma atan2_abs y x : 0 <= y -> Rabs (Ratan2 y x) = Ratan2 y x.
Proof. intros Hy. apply Rabs_pos_eq. apply atan2_range; exact Hy. Qed.

(** ** the kinematics of one collision *)
Section Kin.
  Variables (Ma Mb E a x0 theta : R) (coul : bool).
  Hypotheses (HMa : 0 < Ma) (HMb : 0 < Mb) (HE : 0 <= E).
  Let k := collision_kinematics Ma Mb E a x0 theta coul.

  Lemma kin_T : bcr_recoil_energy k =
    4 * (Ma * Mb) / ((Ma + Mb) * (Ma + Mb)) * E * (sin (theta / 2) * sin (theta / 2)).
  Proof. unfold k, collision_kinematics. cbn [bcr_recoil_energy]. toR. reflexivity. Qed.
  Lemma kin_psi : bcr_psi k = Rabs (Ratan2 (sin theta) (Ma / Mb + cos theta)).
  Proof. unfold k, collision_kinematics. cbn [bcr_psi]. toR. reflexivity. Qed.
  Lemma kin_psir : bcr_psi_recoil k = Rabs (Ratan2 (sin theta) (1 - cos theta)).
  Proof. unfold k, collision_kinematics. cbn [bcr_psi_recoil]. toR. reflexivity. Qed.

  Lemma half_angle : sin theta = 2 * sin (theta / 2) * cos (theta / 2) /\
                     cos theta = 1 - 2 * sin (theta / 2) * sin (theta / 2).
  Proof.
    pose proof (sin_2a (theta / 2)) as H1. pose proof (cos_2a_sin (theta / 2)) as H2.
    replace (2 * (theta / 2)) with theta in H1, H2 by field. split; [exact H1|rewrite H2; ring].
  Qed.

  Lemma kin_T_bounds :
    0 <= bcr_recoil_energy k /\ bcr_recoil_energy k <= 4 * Ma * Mb / ((Ma + Mb) * (Ma + Mb)) * E /\
    4 * Ma * Mb / ((Ma + Mb) * (Ma + Mb)) * E <= E.
  Proof.
    rewrite kin_T. set (s2 := sin (theta / 2) * sin (theta / 2)).
    assert (Hs : 0 <= s2 <= 1). { unfold s2. pose proof (sc1 (theta / 2)). split; nra. }
    replace (4 * Ma * Mb) with (4 * (Ma * Mb)) by ring.
    set (g := 4 * (Ma * Mb) / ((Ma + Mb) * (Ma + Mb))).
    assert (Hg : 0 <= g <= 1).
    { unfold g. split.
      - apply Rlt_le, Rdiv_lt_0_compat; nra.
      - apply Rmult_le_reg_r with ((Ma + Mb) * (Ma + Mb)); [nra|].
        unfold Rdiv. rewrite Rmult_assoc, Rinv_l by nra.
        pose proof (Rle_0_sqr (Ma - Mb)) as Hq. unfold Rsqr in Hq. nra. }
    repeat split.
    - apply Rmult_le_pos; [apply Rmult_le_pos|]; lra.
    - rewrite <- (Rmult_1_r (g * E)) at 2. apply Rmult_le_compat_l; [apply Rmult_le_pos|]; lra.
    - rewrite <- (Rmult_1_l E) at 2. apply Rmult_le_compat_r; lra.
  Qed.

  Hypothesis Hth : 0 < theta <= PI.
  Lemma sin_half_pos : 0 < sin (theta / 2).
  Proof. pose proof PI_RGT_0. apply sin_gt_0; lra. Qed.
  Lemma cos_half_nonneg : 0 <= cos (theta / 2).
  Proof. pose proof PI_RGT_0. apply cos_ge_0; lra. Qed.
  Lemma sin_th_nonneg : 0 <= sin theta.
  Proof. apply sin_ge_0; lra. Qed.

  Lemma kin_psir_value : bcr_psi_recoil k = PI / 2 - theta / 2.
  Proof.
    pose proof PI_RGT_0 as Hpi.
    rewrite kin_psir, atan2_abs by apply sin_th_nonneg.
    destruct half_angle as [Hs Hc].
    assert (Hx : 0 < 1 - cos theta). { rewrite Hc. pose proof sin_half_pos. nra. }
    unfold Ratan2. destruct (Rlt_dec 0 (1 - cos theta)) as [_|n]; [|contradiction].
    replace (sin theta / (1 - cos theta)) with (tan (PI / 2 - theta / 2)).
    - apply atan_tan. lra.
    - unfold tan. rewrite sin_shift, cos_shift, Hs, Hc.
      pose proof sin_half_pos. field. nra.
  Qed.
  Lemma kin_psi_range : 0 <= bcr_psi k <= PI.
  Proof. rewrite kin_psi, atan2_abs by apply sin_th_nonneg. apply atan2_range, sin_th_nonneg. Qed.
  Lemma kin_psi_tan : Ma / Mb + cos theta <> 0 -> tan (bcr_psi k) = sin theta / (Ma / Mb + cos theta).
  Proof.
    intros Hd. rewrite kin_psi, atan2_abs by apply sin_th_nonneg.
    destruct (atan2_sin_cos (sin theta) (Ma / Mb + cos theta)) as (Hr & _ & Hc & Hs); [left; exact Hd|].
    unfold tan. rewrite Hc, Hs. set (r := sqrt _) in *. set (d := Ma / Mb + cos theta) in *.
    clearbody d r. field. split; [exact Hd|lra].
  Qed.

End Kin.

Lemma atan2_neg y x : y < 0 -> Ratan2 y x = - Ratan2 (- y) x.
Proof.
  intros Hy. unfold Ratan2.
  destruct (Rlt_dec 0 x) as [H0|H0].
  - replace (- y / x) with (- (y / x)) by (field; lra). rewrite atan_opp. ring.
  - destruct (Rlt_dec x 0) as [H1|H1].
    + destruct (Rle_dec 0 y); [lra|]. destruct (Rle_dec 0 (- y)); [|lra].
      replace (- y / x) with (- (y / x)) by (field; lra). rewrite atan_opp. ring.
    + destruct (Rlt_dec 0 y); [lra|]. destruct (Rlt_dec y 0); [|lra].
      destruct (Rlt_dec 0 (- y)); [field|lra].
Qed.
Lemma atan2_abs_gen y x : Rabs (Ratan2 y x) = Ratan2 (Rabs y) x.
Proof.
  destruct (Rle_lt_dec 0 y) as [Hy|Hy].
  - rewrite (Rabs_pos_eq y Hy). apply atan2_abs, Hy.
  - rewrite (Rabs_left y Hy), (atan2_neg y x Hy), Rabs_Ropp. apply atan2_abs. lra.
Qed.

(** [r] times cosine and sine of atan2, also at the origin *)
Lemma atan2_polar y x : 
  sqrt (x * x + y * y) * cos (Ratan2 y x) = x /\ sqrt (x * x + y * y) * sin (Ratan2 y x) = y.
Proof.
  destruct (Req_EM_T x 0) as [Hx|Hx]; [destruct (Req_EM_T y 0) as [Hy|Hy]|].
  - subst. replace (0 * 0 + 0 * 0) with 0 by ring. rewrite sqrt_0. split; ring.
  - destruct (atan2_sin_cos y x) as (Hr & _ & Hc & Hs); [auto|]. rewrite Hc, Hs. split; field; lra.
  - destruct (atan2_sin_cos y x) as (Hr & _ & Hc & Hs); [auto|]. rewrite Hc, Hs. split; field; lra.
Qed.

Section Momentum.
  Variables (Ma Mb E a x0 theta : R) (coul : bool).
  Hypotheses (HMa : 0 < Ma) (HMb : 0 < Mb) (HE : 0 <= E).
  Let k := collision_kinematics Ma Mb E a x0 theta coul.

  (** momentum balance along the old direction and across it, for every angle *)
  Lemma kin_momentum :
    sqrt (2 * Ma * (E - bcr_recoil_energy k)) * cos (bcr_psi k)
      + sqrt (2 * Mb * bcr_recoil_energy k) * cos (bcr_psi_recoil k) = sqrt (2 * Ma * E) /\
    sqrt (2 * Ma * (E - bcr_recoil_energy k)) * sin (bcr_psi k)
      = sqrt (2 * Mb * bcr_recoil_energy k) * sin (bcr_psi_recoil k).
  Proof.
    unfold k. rewrite kin_psir, kin_psi, kin_T, !atan2_abs_gen.
    destruct (atan2_polar (Rabs (sin theta)) (Ma / Mb + cos theta)) as [P1 P2].
    destruct (atan2_polar (Rabs (sin theta)) (1 - cos theta)) as [Q1 Q2].
    set (A := Ratan2 _ (Ma / Mb + _)) in *. set (B := Ratan2 _ (1 - _)) in *. clearbody A B.
    destruct (half_angle theta) as [Hst2 Hct].
    pose proof (sc1 theta) as Hsct.
    set (s := sin (theta / 2)) in *.
    assert (HS : Rabs (sin theta) * Rabs (sin theta) = sin theta * sin theta).
    { rewrite <- Rabs_mult. apply Rabs_pos_eq. apply Rle_0_sqr. }
    set (S := Rabs (sin theta)) in *. 
    set (r1 := sqrt ((Ma / Mb + cos theta) * (Ma / Mb + cos theta) + S * S)) in *.
    set (r2 := sqrt ((1 - cos theta) * (1 - cos theta) + S * S)) in *.
    assert (Hr1 : r1 * r1 = (Ma / Mb + cos theta) * (Ma / Mb + cos theta) + S * S).
    { apply sqrt_sqrt. apply Rplus_le_le_0_compat; apply Rle_0_sqr. }
    assert (Hr2 : r2 * r2 = (1 - cos theta) * (1 - cos theta) + S * S).
    { apply sqrt_sqrt. apply Rplus_le_le_0_compat; apply Rle_0_sqr. }
    assert (Hr1p : 0 <= r1) by apply sqrt_pos. assert (Hr2p : 0 <= r2) by apply sqrt_pos.
    set (T := 4 * (Ma * Mb) / ((Ma + Mb) * (Ma + Mb)) * E * (s * s)).
    assert (Hpos : 0 <= 2 * Ma * E) by nra.
    assert (H1 : sqrt (2 * Ma * (E - T)) = sqrt (2 * Ma * E) * (Mb * r1 / (Ma + Mb))).
    { transitivity (sqrt ((2 * Ma * E) * ((Mb * r1 / (Ma + Mb)) * (Mb * r1 / (Ma + Mb))))).
      - f_equal. replace (Mb * r1 / (Ma + Mb) * (Mb * r1 / (Ma + Mb))) with (Mb * Mb * (r1 * r1) / ((Ma + Mb) * (Ma + Mb))) by (field; lra).
        rewrite Hr1, HS. replace ((Ma / Mb + cos theta) * (Ma / Mb + cos theta) + sin theta * sin theta)
          with (Ma / Mb * (Ma / Mb) + 2 * (Ma / Mb) * cos theta + (sin theta * sin theta + cos theta * cos theta)) by ring.
        rewrite Hsct, Hct. unfold T. field. lra.
      - rewrite sqrt_mult; [|exact Hpos|apply Rle_0_sqr]. f_equal. apply sqrt_square.
        unfold Rdiv. apply Rmult_le_pos; [nra|]. apply Rlt_le, Rinv_0_lt_compat. lra. }
    assert (H2 : sqrt (2 * Mb * T) = sqrt (2 * Ma * E) * (Mb * r2 / (Ma + Mb))).
    { transitivity (sqrt ((2 * Ma * E) * ((Mb * r2 / (Ma + Mb)) * (Mb * r2 / (Ma + Mb))))).
      - f_equal. replace (Mb * r2 / (Ma + Mb) * (Mb * r2 / (Ma + Mb))) with (Mb * Mb * (r2 * r2) / ((Ma + Mb) * (Ma + Mb))) by (field; lra).
        rewrite Hr2, HS. replace ((1 - cos theta) * (1 - cos theta) + sin theta * sin theta)
          with (1 - 2 * cos theta + (sin theta * sin theta + cos theta * cos theta)) by ring.
        rewrite Hsct, Hct. unfold T. field. lra.
      - rewrite sqrt_mult; [|exact Hpos|apply Rle_0_sqr]. f_equal. apply sqrt_square.
        unfold Rdiv. apply Rmult_le_pos; [nra|]. apply Rlt_le, Rinv_0_lt_compat. lra. }
    rewrite H1, H2. clear H1 H2. clearbody r1 r2. split.
    - transitivity (sqrt (2 * Ma * E) * (Mb * (r1 * cos A + r2 * cos B) / (Ma + Mb))); [field; lra|].
      rewrite P1, Q1. field. lra.
    - transitivity (sqrt (2 * Ma * E) * (Mb * (r1 * sin A) / (Ma + Mb))); [field; lra|].
      transitivity (sqrt (2 * Ma * E) * (Mb * (r2 * sin B) / (Ma + Mb))); [|field; lra].
      rewrite P2, Q2. reflexivity.
  Qed.
End Momentum.

(** ** the two rotations lie in one plane *)
Lemma rotate_momentum d psi psir phi P P1 P2 :
  is_unit d -> off_axis d ->
  P1 * cos psi + P2 * cos psir = P -> P1 * sin psi = P2 * sin psir ->
  vplus (vscale P1 (rotate_dir d psi phi)) (vscale P2 (rotate_dir d (- psir) phi)) = vscale P d.
Proof.
  intros Hu Hx HP Ht. rewrite !rotate_dir_raw by assumption.
  unfold raw_rotate, vplus, vscale. cbn [vx vy vz]. rewrite cos_neg, sin_neg. subst P.
  set (aa := sqrt _).
  f_equal.
  - transitivity ((P1 * cos psi + P2 * cos psir) * vx d + (P1 * sin psi - P2 * sin psir) * cos phi * aa); [ring|].
    rewrite Ht. ring.
  - transitivity ((P1 * cos psi + P2 * cos psir) * vy d - (P1 * sin psi - P2 * sin psir) * / aa * (cos phi * vx d * vy d - sin phi * vz d)); [unfold Rdiv; ring|].
    rewrite Ht. ring.
  - transitivity ((P1 * cos psi + P2 * cos psir) * vz d - (P1 * sin psi - P2 * sin psir) * / aa * (cos phi * vx d * vz d + sin phi * vy d)); [unfold Rdiv; ring|].
    rewrite Ht. ring.
Qed.

Lemma get_momentum_R p : 0 < p_m p -> 0 <= p_E p -> get_momentum p = momentum (p_m p) (p_E p) (p_dir p).
Proof.
  intros Hm HE. unfold get_momentum, momentum, vscale. toR.
  assert (H : p_m p * sqrt (2 * p_E p / p_m p) = sqrt (2 * p_m p * p_E p)).
  { rewrite <- (sqrt_square (p_m p)) at 1 by lra.
    rewrite <- sqrt_mult; [f_equal; field; lra|nra|].
    unfold Rdiv. apply Rmult_le_pos; [lra|]. apply Rlt_le, Rinv_0_lt_compat, Hm. }
  rewrite H. reflexivity.
Qed.

(** what a collision result is *)
Lemma cbc_kinematics build (p1 p2 : Particle R) bcg options r :
  calculate_binary_collision build p1 p2 bcg options = Ok (Some r) ->
  exists a x0 coul, r = collision_kinematics (p_m p1) (p_m p2) (p_E p1) a x0 (bcr_theta r) coul.
Proof.
  unfold calculate_binary_collision. intros H. inv_ok.
  match goal with H : (if ?b then _ else _) = _ |- _ => destruct b; [discriminate H|] end.
  inv_ok. eexists _, _, _. reflexivity.
Qed.

Lemma cbc_energy_bounds build (p1 p2 : Particle R) bcg options r :
  0 < p_m p1 -> 0 < p_m p2 -> 0 <= p_E p1 ->
  calculate_binary_collision build p1 p2 bcg options = Ok (Some r) ->
  0 <= bcr_recoil_energy r /\
  bcr_recoil_energy r <= 4 * p_m p1 * p_m p2 / ((p_m p1 + p_m p2) * (p_m p1 + p_m p2)) * p_E p1 /\
  4 * p_m p1 * p_m p2 / ((p_m p1 + p_m p2) * (p_m p1 + p_m p2)) * p_E p1 <= p_E p1.
Proof.
  intros H1 H2 HE H. apply cbc_kinematics in H. destruct H as (a & x0 & coul & ->).
  apply kin_T_bounds; assumption.
Qed.

Lemma cbc_angles build (p1 p2 : Particle R) bcg options r :
  0 < p_m p1 -> 0 < p_m p2 -> 0 <= p_E p1 ->
  calculate_binary_collision build p1 p2 bcg options = Ok (Some r) ->
  0 < bcr_theta r <= PI ->
  bcr_psi_recoil r = PI / 2 - bcr_theta r / 2 /\ 0 <= bcr_psi_recoil r <= PI / 2 /\ 0 <= bcr_psi r <= PI /\
  (p_m p1 / p_m p2 + cos (bcr_theta r) <> 0 ->
   tan (bcr_psi r) = sin (bcr_theta r) / (p_m p1 / p_m p2 + cos (bcr_theta r))).
Proof.
  intros H1 H2 HE H Hth. apply cbc_kinematics in H. destruct H as (a & x0 & coul & E).
  rewrite E. cbn [bcr_theta collision_kinematics].
  change (bcr_theta (collision_kinematics _ _ _ _ _ ?t _)) with t.
  rewrite kin_psir_value by assumption. pose proof PI_RGT_0.
  repeat split; try lra; try (apply kin_psi_range; assumption).
  intros Hd. apply kin_psi_tan; assumption.
Qed.

(** one collision, as the loop performs it *)
Lemma collision_balance build (p1 p2 : Particle R) bcg options r k bulk :
  is_unit (p_dir p1) -> off_axis (p_dir p1) -> 0 < p_m p1 -> 0 < p_m p2 -> 0 <= p_E p1 ->
  p_dir p2 = p_dir p1 ->
  calculate_binary_collision build p1 p2 bcg options = Ok (Some r) ->
  let p1' := projectile_after k bcg r p1 in
  let p2' := recoil_after bcg r bulk p2 in
  p_E p1' = p_E p1 - bcr_recoil_energy r /\
  p_E p2' = bcr_recoil_energy r - bulk /\
  vplus (momentum (p_m p1') (p_E p1') (p_dir p1')) (momentum (p_m p2') (p_E p2' + bulk) (p_dir p2'))
    = momentum (p_m p1) (p_E p1) (p_dir p1).
Proof.
  intros Hu Hx H1 H2 HE Hd H. apply cbc_kinematics in H. destruct H as (a & x0 & coul & Hr).
  cbv zeta. 
  assert (E1 : p_E (projectile_after k bcg r p1) = p_E p1 - bcr_recoil_energy r /\
               p_m (projectile_after k bcg r p1) = p_m p1 /\
               p_dir (projectile_after k bcg r p1) = rotate_dir (p_dir p1) (bcr_psi r) (bcg_phi_azimuthal bcg)).
  { unfold projectile_after, rotate. destruct (_ && _); cbn; repeat split; ring. }
  destruct E1 as (E1 & M1 & D1).
  assert (E2 : p_E (recoil_after bcg r bulk p2) = bcr_recoil_energy r - bulk) by reflexivity.
  assert (M2 : p_m (recoil_after bcg r bulk p2) = p_m p2) by reflexivity.
  assert (D2 : p_dir (recoil_after bcg r bulk p2) = rotate_dir (p_dir p1) (- bcr_psi_recoil r) (bcg_phi_azimuthal bcg)).
  { unfold recoil_after, rotate. cbn. rewrite Hd. reflexivity. }
  rewrite E1, E2, M1, M2, D1, D2.
  split; [reflexivity|]. split; [reflexivity|].
  unfold momentum. replace (bcr_recoil_energy r - bulk + bulk) with (bcr_recoil_energy r) by ring.
  rewrite Hr. apply rotate_momentum; try assumption; apply kin_momentum; assumption.
Qed.

Lemma collision_step_balance build (mat : Material R) options k bcg cs rng n cs' n' :
  is_unit (p_dir (cs_particle_1 cs)) -> off_axis (p_dir (cs_particle_1 cs)) ->
  0 < p_m (cs_particle_1 cs) -> 0 <= p_E (cs_particle_1 cs) -> Forall (fun m => 0 < m) (mat_m mat) ->
  collision_step build mat options k bcg cs rng n = Ok (cs', n') ->
  cs' = cs \/
  exists T bulk p2',
    let p1 := cs_particle_1 cs in
    let p1' := cs_particle_1 cs' in
    average_bulk_binding_energy mat (vx (p_pos p2')) (vy (p_pos p2')) (vz (p_pos p2')) = Ok bulk /\
    (exists i, atom_of_species mat i p2') /\
    0 <= T <= p_E p1 /\
    p_E p1' = p_E p1 - T /\ p_E p2' = T - bulk /\
    cs_total_energy_lost_to_recoils cs' = cs_total_energy_lost_to_recoils cs + T /\
    vplus (momentum (p_m p1') (p_E p1') (p_dir p1')) (momentum (p_m p2') T (p_dir p2'))
      = momentum (p_m p1) (p_E p1) (p_dir p1) /\
    (cs_particles cs' = cs_particles cs \/ cs_particles cs' = p2' :: cs_particles cs).
Proof.
  intros Hu Hx H1 HE Hm H. apply collision_step_inv in H.
  destruct H as (i & p2 & b & Hc & Hb & [(_ & ->)|(Hin & r & bulk & keep & Hr & Hbulk & Hk & ->)]); [left; reflexivity|].
  right. pose proof (partner_inv _ _ _ _ _ _ _ _ _ Hc) as (Hpos & _ & Hdir & _ & _ & _ & Ha & _).
  rewrite normalize_unit in Hdir by exact Hu.
  assert (H2 : 0 < p_m p2).
  { rewrite Forall_forall in Hm. apply Hm. eapply nth_error_In. apply Ha. }
  exists (bcr_recoil_energy r), bulk, (recoil_after bcg r bulk p2).
  cbn [cs_particle_1 cs_particles cs_total_energy_lost_to_recoils].
  destruct (collision_balance _ _ _ _ _ _ k bulk Hu Hx H1 H2 HE Hdir Hr) as (B1 & B2 & B3).
  pose proof (cbc_energy_bounds _ _ _ _ _ _ H1 H2 HE Hr) as (T1 & T2 & T3).
  split; [exact Hbulk|]. split; [exists i; exact Ha|]. split; [lra|].
  split; [exact B1|]. split; [exact B2|]. split; [toR; reflexivity|].
  split.
  - rewrite B2 in B3. replace (bcr_recoil_energy r - bulk + bulk) with (bcr_recoil_energy r) in B3 by ring. exact B3.
  - destruct keep; auto.
Qed.
