(** * ProofsWW.v - the tungsten-tungsten potential in exact arithmetic *)
From Coquelicot Require Import Coquelicot.
From Coq Require Import ZArith List Bool Lia Reals Lra.
From Verif Require Import Num ModelTypes ModelConsts ModelInteractions ProofsBase NumR SpecR SpecCollision ProofsInteractions SpecPotential ProofsPotential ProofsQuad.
Import ListNotations.
Open Scope R_scope.

(** ** bounds for exponentials *)
Lemma grows (f df : R -> R) : (forall x, 0 <= x -> is_derive f x (df x)) -> (forall x, 0 <= x -> 0 <= df x) -> f 0 = 0 -> forall x, 0 <= x -> 0 <= f x.
Proof.
  intros Hd Hp H0 x Hx. destruct (Rle_lt_or_eq_dec 0 x Hx) as [L|<-]; [|lra].
  destruct (MVT_gen f 0 x df) as (c & Hc & E).
  - intros y Hy. rewrite Rmin_left, Rmax_right in Hy by lra. apply Hd. lra.
  - intros y Hy. rewrite Rmin_left, Rmax_right in Hy by lra. apply (ex_derive_continuous_pt f y) || (apply continuity_pt_filterlim, (ex_derive_continuous f y); exists (df y); apply Hd; lra).
  - rewrite Rmin_left, Rmax_right in Hc by lra. specialize (Hp c ltac:(lra)). assert (0 <= df c * (x - 0)) by (apply Rmult_le_pos; lra). lra.
Qed.
Lemma exp1 x : 0 <= x -> 0 <= exp (- x) - (1 - x).
Proof. intros _. pose proof (exp_ineq1_le (- x)). lra. Qed.
Lemma exp2 x : 0 <= x -> 0 <= (1 - x + x ^ 2 / 2) - exp (- x).
Proof.
  revert x. apply (grows _ (fun x => exp (- x) - (1 - x))).
  - intros x _. auto_derive; [exact I|]. field.
  - exact exp1.
  - rewrite Ropp_0, exp_0. field.
Qed.
Lemma exp3 x : 0 <= x -> 0 <= exp (- x) - (1 - x + x ^ 2 / 2 - x ^ 3 / 6).
Proof.
  revert x. apply (grows _ (fun x => (1 - x + x ^ 2 / 2) - exp (- x))).
  - intros x _. auto_derive; [exact I|]. field.
  - exact exp2.
  - rewrite Ropp_0, exp_0. field.
Qed.
Lemma exp4 x : 0 <= x -> 0 <= (1 - x + x ^ 2 / 2 - x ^ 3 / 6 + x ^ 4 / 24) - exp (- x).
Proof.
  revert x. apply (grows _ (fun x => exp (- x) - (1 - x + x ^ 2 / 2 - x ^ 3 / 6))).
  - intros x _. auto_derive; [exact I|]. field.
  - exact exp3.
  - rewrite Ropp_0, exp_0. field.
Qed.
Lemma exp_taylor x : 0 <= x -> 1 - x + x ^ 2 / 2 - x ^ 3 / 6 <= exp (- x) /\ exp (- x) <= 1 - x + x ^ 2 / 2 - x ^ 3 / 6 + x ^ 4 / 24.
Proof. intros H. pose proof (exp3 x H). pose proof (exp4 x H). lra. Qed.
Lemma exp_double x y l u l' u' : l <= exp x <= u -> 0 <= l -> y = 2 * x -> l' <= l * l -> u * u <= u' -> l' <= exp y <= u'.
Proof.
  intros H Hl -> H1 H2. replace (2 * x) with (x + x) by ring. rewrite exp_plus.
  split; [eapply Rle_trans; [exact H1|]; apply Rmult_le_compat; lra|]. eapply Rle_trans; [|exact H2]. pose proof (exp_pos x). apply Rmult_le_compat; lra.
Qed.
(** a little above the argument *)
Lemma exp_near A l u x : l <= exp (- A) <= u -> 0 <= l -> A <= x <= A + / 10000000 -> l * (1 - / 10000000) <= exp (- x) <= u.
Proof.
  intros (H1 & H2) Hl (H3 & H4). replace (- x) with (- A + - (x - A)) by ring. rewrite exp_plus.
  pose proof (exp_ineq1_le (- (x - A))). assert (exp (- (x - A)) <= 1) by (rewrite <- exp_0; apply exp_le || (destruct (Req_dec (x - A) 0) as [->|]; [rewrite Ropp_0; lra|left; apply exp_increasing; lra])).
  split; [apply Rmult_le_compat; lra|]. pose proof (exp_pos (- A)). apply Rle_trans with (exp (- A) * 1); [apply Rmult_le_compat_l; lra|lra].
Qed.
Lemma exp_w0a : 7824819235534 / 100000000000000 <= exp (- (25478687 / 10000000)) <= 7824825918791 / 100000000000000.
Proof.
  assert (H0 : 98029157028898 / 100000000000000 <= exp (- (25478687 / 1280000000)) <= 98029157683019 / 100000000000000) by (destruct (exp_taylor (25478687 / 1280000000)) as (T1 & T2); [lra|]; lra).
  pose proof (exp_double (- (25478687 / 1280000000)) (- (25478687 / 640000000)) _ _ (96097156277963 / 100000000000000) (96097157560423 / 100000000000000) H0 ltac:(lra) ltac:(lra) ltac:(lra) ltac:(lra)) as H1. clear H0.
  pose proof (exp_double (- (25478687 / 640000000)) (- (25478687 / 320000000)) _ _ (92346634447112 / 100000000000000) (92346636911928 / 100000000000000) H1 ltac:(lra) ltac:(lra) ltac:(lra) ltac:(lra)) as H2. clear H1.
  pose proof (exp_double (- (25478687 / 320000000)) (- (25478687 / 160000000)) _ _ (85279008937085 / 100000000000000) (85279013489435 / 100000000000000) H2 ltac:(lra) ltac:(lra) ltac:(lra) ltac:(lra)) as H3. clear H2.
  pose proof (exp_double (- (25478687 / 160000000)) (- (25478687 / 80000000)) _ _ (72725093652914 / 100000000000000) (72725101417313 / 100000000000000) H3 ltac:(lra) ltac:(lra) ltac:(lra) ltac:(lra)) as H4. clear H3.
  pose proof (exp_double (- (25478687 / 80000000)) (- (25478687 / 40000000)) _ _ (52889392468251 / 100000000000000) (52889403761585 / 100000000000000) H4 ltac:(lra) ltac:(lra) ltac:(lra) ltac:(lra)) as H5. clear H4.
  pose proof (exp_double (- (25478687 / 40000000)) (- (25478687 / 20000000)) _ _ (27972878356606 / 100000000000000) (27972890302560 / 100000000000000) H5 ltac:(lra) ltac:(lra) ltac:(lra) ltac:(lra)) as H6. clear H5.
  pose proof (exp_double (- (25478687 / 20000000)) (- (25478687 / 10000000)) _ _ (7824819235534 / 100000000000000) (7824825918791 / 100000000000000) H6 ltac:(lra) ltac:(lra) ltac:(lra) ltac:(lra)) as H7. clear H6.
  exact H7.
Qed.
Lemma exp_w1a : 614914275886 / 100000000000000 <= exp (- (50914409 / 10000000)) <= 614915322739 / 100000000000000.
Proof.
  assert (H0 : 98030802288163 / 100000000000000 <= exp (- (50914409 / 2560000000)) <= 98030802940080 / 100000000000000) by (destruct (exp_taylor (50914409 / 2560000000)) as (T1 & T2); [lra|]; lra).
  pose proof (exp_double (- (50914409 / 2560000000)) (- (50914409 / 1280000000)) _ _ (96100381972609 / 100000000000000) (96100383250768 / 100000000000000) H0 ltac:(lra) ltac:(lra) ltac:(lra) ltac:(lra)) as H1. clear H0.
  pose proof (exp_double (- (50914409 / 1280000000)) (- (50914409 / 640000000)) _ _ (92352834152813 / 100000000000000) (92352836609445 / 100000000000000) H1 ltac:(lra) ltac:(lra) ltac:(lra) ltac:(lra)) as H2. clear H1.
  pose proof (exp_double (- (50914409 / 640000000)) (- (50914409 / 320000000)) _ _ (85290459760569 / 100000000000000) (85290464298109 / 100000000000000) H2 ltac:(lra) ltac:(lra) ltac:(lra) ltac:(lra)) as H3. clear H2.
  pose proof (exp_double (- (50914409 / 320000000)) (- (50914409 / 160000000)) _ _ (72744625261692 / 100000000000000) (72744633001871 / 100000000000000) H3 ltac:(lra) ltac:(lra) ltac:(lra) ltac:(lra)) as H4. clear H3.
  pose proof (exp_double (- (50914409 / 160000000)) (- (50914409 / 80000000)) _ _ (52917805044639 / 100000000000000) (52917816305769 / 100000000000000) H4 ltac:(lra) ltac:(lra) ltac:(lra) ltac:(lra)) as H5. clear H4.
  pose proof (exp_double (- (50914409 / 80000000)) (- (50914409 / 40000000)) _ _ (28002940907424 / 100000000000000) (28002952825712 / 100000000000000) H5 ltac:(lra) ltac:(lra) ltac:(lra) ltac:(lra)) as H6. clear H5.
  pose proof (exp_double (- (50914409 / 40000000)) (- (50914409 / 20000000)) _ _ (7841646994646 / 100000000000000) (7841653669591 / 100000000000000) H6 ltac:(lra) ltac:(lra) ltac:(lra) ltac:(lra)) as H7. clear H6.
  pose proof (exp_double (- (50914409 / 20000000)) (- (50914409 / 10000000)) _ _ (614914275886 / 100000000000000) (614915322739 / 100000000000000) H7 ltac:(lra) ltac:(lra) ltac:(lra) ltac:(lra)) as H8. clear H7.
  exact H8.
Qed.
Lemma exp_w2a : 673825102 / 100000000000000 <= exp (- (59538519 / 5000000)) <= 673829408 / 100000000000000.
Proof.
  assert (H0 : 97701111884642 / 100000000000000 <= exp (- (59538519 / 2560000000)) <= 97701113103691 / 100000000000000) by (destruct (exp_taylor (59538519 / 2560000000)) as (T1 & T2); [lra|]; lra).
  pose proof (exp_double (- (59538519 / 2560000000)) (- (59538519 / 1280000000)) _ _ (95455072634953 / 100000000000000) (95455075017003 / 100000000000000) H0 ltac:(lra) ltac:(lra) ltac:(lra) ltac:(lra)) as H1. clear H0.
  pose proof (exp_double (- (59538519 / 1280000000)) (- (59538519 / 640000000)) _ _ (91116708917441 / 100000000000000) (91116713465017 / 100000000000000) H1 ltac:(lra) ltac:(lra) ltac:(lra) ltac:(lra)) as H2. clear H1.
  pose proof (exp_double (- (59538519 / 640000000)) (- (59538519 / 320000000)) _ _ (83022546439456 / 100000000000000) (83022554726661 / 100000000000000) H2 ltac:(lra) ltac:(lra) ltac:(lra) ltac:(lra)) as H3. clear H2.
  pose proof (exp_double (- (59538519 / 320000000)) (- (59538519 / 160000000)) _ _ (68927432172916 / 100000000000000) (68927445933415 / 100000000000000) H3 ltac:(lra) ltac:(lra) ltac:(lra) ltac:(lra)) as H4. clear H3.
  pose proof (exp_double (- (59538519 / 160000000)) (- (59538519 / 80000000)) _ _ (47509909059519 / 100000000000000) (47509928029039 / 100000000000000) H4 ltac:(lra) ltac:(lra) ltac:(lra) ltac:(lra)) as H5. clear H4.
  pose proof (exp_double (- (59538519 / 80000000)) (- (59538519 / 40000000)) _ _ (22571914588437 / 100000000000000) (22571932613245 / 100000000000000) H5 ltac:(lra) ltac:(lra) ltac:(lra) ltac:(lra)) as H6. clear H5.
  pose proof (exp_double (- (59538519 / 40000000)) (- (59538519 / 20000000)) _ _ (5094913281876 / 100000000000000) (5094921418969 / 100000000000000) H6 ltac:(lra) ltac:(lra) ltac:(lra) ltac:(lra)) as H7. clear H6.
  pose proof (exp_double (- (59538519 / 20000000)) (- (59538519 / 10000000)) _ _ (259581413498 / 100000000000000) (259582242655 / 100000000000000) H7 ltac:(lra) ltac:(lra) ltac:(lra) ltac:(lra)) as H8. clear H7.
  pose proof (exp_double (- (59538519 / 10000000)) (- (59538519 / 5000000)) _ _ (673825102 / 100000000000000) (673829408 / 100000000000000) H8 ltac:(lra) ltac:(lra) ltac:(lra) ltac:(lra)) as H9. clear H8.
  exact H9.
Qed.

(** ** the three pieces *)
Definition w_x1 : R := 110002200044 / 10 ^ 11.
Definition w_x2 : R := 210004200084 / 10 ^ 11.
Definition w_short (r : R) : R := bare_coulomb 74 74 r * expsum (screening_terms ZBL) (r / screening_length 74 74 ZBL).
Definition w_mid (x : R) : R :=
  (1389653276380862 / 10 ^ 11 - 3596912431628216 / 10 ^ 11 * x + 3739206756369099 / 10 ^ 11 * x ^ 2 - 1933748081656593 / 10 ^ 11 * x ^ 3
   + 495516793802426 / 10 ^ 11 * x ^ 4 - 50264585985867 / 10 ^ 11 * x ^ 5).
Definition ramp3 (d x : R) : R := ((d - x + Rabs (d - x)) / 2) ^ 3.
Definition w_long (x : R) : R :=
  - 1036435865158945 / 10 ^ 16 * ramp3 (42689 / 10000) x - 2912948318493851 / 10 ^ 16 * ramp3 (398568 / 100000) x
  - 2096765499656263 / 10 ^ 15 * ramp3 (370246 / 100000) x + 1916045452701010 / 10 ^ 14 * ramp3 (341924 / 100000) x
  - 4101619862085917 / 10 ^ 14 * ramp3 (313602 / 100000) x + 4605205617244703 / 10 ^ 14 * ramp3 (28528 / 10000) x
  + 2642203930654883 / 10 ^ 14 * ramp3 (27411 / 10000) x + 1535211507804088 / 10 ^ 14 * ramp3 (2604045 / 1000000) x
  + 1412806259323987 / 10 ^ 14 * ramp3 (246699 / 100000) x.
Definition w_potential (r : R) : R :=
  if Rle_dec (r / angstrom) w_x1 then w_short r
  else if Rle_dec (r / angstrom) w_x2 then w_mid (r / angstrom) * electronvolt
  else w_long (r / angstrom) * electronvolt.

Lemma ramp3_term c d x : cEV *! c *! npowi (d -! x) 3 *! heaviside (d -! x) = c * ramp3 d x * electronvolt.
Proof.
  unfold heaviside, ramp3. change (cEV : R) with (cQ : R). rewrite cQ_spec. unfold electronvolt. rewrite npowi3_R. toR.
  destruct (nle 0 (d - x)) eqn:H.
  - apply nle_true in H. rewrite (Rabs_right (d - x)) by lra. field.
  - apply nle_false in H. rewrite (Rabs_left (d - x)) by lra. field.
Qed.
Lemma ww_R r : 0 < r -> tungsten_tungsten_cubic_spline r = w_potential r.
Proof.
  intros Hr. unfold tungsten_tungsten_cubic_spline, w_potential. cbv zeta. rewrite cANGSTROM_spec. change (r /! angstrom) with (r / angstrom).
  assert (E1 : (ww_x1 : R) = w_x1) by (unfold ww_x1, w_x1; rewrite nlit_neg, tenpow; reflexivity).
  assert (E2 : (ww_x2 : R) = w_x2) by (unfold ww_x2, w_x2; rewrite nlit_neg, tenpow; reflexivity).
  rewrite E1, E2. set (x := r / angstrom).
  destruct (Rle_dec x w_x1) as [H|H].
  - replace (x <=! w_x1) with true by (symmetry; apply nle_true; exact H). unfold w_short. rewrite <- bare_spec by exact Hr.
    assert (EP : zbl (r /! screening_length (nZ 74) (nZ 74) ZBL) = expsum (screening_terms ZBL) (r /! screening_length (nZ 74) (nZ 74) ZBL)).
    { pose proof (phi_R (r /! screening_length (nZ 74) (nZ 74) ZBL) ZBL I) as P. cbn [phi] in P. congruence. }
    rewrite EP. toR. reflexivity.
  - replace (x <=! w_x1) with false by (symmetry; apply nle_false; lra).
    destruct (Rle_dec x w_x2) as [H2|H2].
    + replace (x <=! w_x2) with true by (symmetry; apply nle_true; exact H2).
      assert (Hx : 0 < x) by (apply Rdiv_lt_0_compat; [exact Hr|rewrite <- cANGSTROM_spec; exact cANGSTROM_pos]).
      unfold w_mid. change (cEV : R) with (cQ : R). rewrite cQ_spec. unfold electronvolt. rewrite !nlit_neg, !tenpow. rewrite npowi2_R, npowi3_R. toR.
      rewrite (npowf_nat x 4 4 eq_refl Hx), (npowf_nat x 5 5 eq_refl Hx). change (Pos.to_nat 11) with 11%nat. field.
    + replace (x <=! w_x2) with false by (symmetry; apply nle_false; lra).
      unfold ww_spline_coefficients, ww_spline_delta. cbn [zip combine map fst snd]. unfold nsum, w_long. cbn [fold_left].
      rewrite !ramp3_term. rewrite !nlit_neg, !tenpow.
      change (Pos.to_nat 14) with 14%nat. change (Pos.to_nat 15) with 15%nat. change (Pos.to_nat 16) with 16%nat.
      replace (4268900000000000 / 10 ^ 15) with (42689 / 10000) by field.
      replace (3985680000000000 / 10 ^ 15) with (398568 / 100000) by field.
      replace (3702460000000000 / 10 ^ 15) with (370246 / 100000) by field.
      replace (3419240000000000 / 10 ^ 15) with (341924 / 100000) by field.
      replace (3136020000000000 / 10 ^ 15) with (313602 / 100000) by field.
      replace (2852800000000000 / 10 ^ 15) with (28528 / 10000) by field.
      replace (2741100000000000 / 10 ^ 15) with (27411 / 10000) by field.
      replace (2604045000000000 / 10 ^ 15) with (2604045 / 1000000) by field.
      replace (2466990000000000 / 10 ^ 15) with (246699 / 100000) by field.
      toR. field.
Qed.

(** ** continuity and jumps *)
Lemma angstrom_pos : 0 < angstrom. Proof. rewrite <- cANGSTROM_spec. exact cANGSTROM_pos. Qed.
Lemma ev_pos : 0 < electronvolt. Proof. unfold electronvolt. rewrite <- cQ_spec. exact cQ_pos. Qed.
Lemma cont_eps f c : continuity_pt f c -> forall eps, 0 < eps -> exists d, 0 < d /\ forall r, Rabs (r - c) < d -> Rabs (f r - f c) < eps.
Proof.
  intros H eps He. destruct (H eps He) as (d & Hd & K). exists d. split; [exact Hd|]. intros r Hr.
  destruct (Req_dec r c) as [->|N]; [rewrite Rminus_diag_eq, Rabs_R0 by reflexivity; exact He|].
  apply (K r). split; [split; [exact I|congruence]|exact Hr].
Qed.
Lemma join_jump V f g c h d0 : continuity_pt f c -> continuity_pt g c -> 0 < d0 ->
  (forall r, Rabs (r - c) < d0 -> V r = f r \/ V r = g r) -> V c = f c -> Rabs (f c - g c) <= h -> 0 <= h -> jumps_at_most h V c.
Proof.
  intros Hf Hg Hd HV Hc Hh Hh0 eps He. destruct (cont_eps f c Hf eps He) as (d1 & D1 & K1). destruct (cont_eps g c Hg eps He) as (d2 & D2 & K2).
  exists (Rmin d0 (Rmin d1 d2)). split; [repeat apply Rmin_glb_lt; assumption|]. intros r Hr.
  assert (A0 : Rabs (r - c) < d0) by (eapply Rlt_le_trans; [exact Hr|apply Rmin_l]).
  assert (A1 : Rabs (r - c) < d1) by (eapply Rlt_le_trans; [exact Hr|eapply Rle_trans; [apply Rmin_r|apply Rmin_l]]).
  assert (A2 : Rabs (r - c) < d2) by (eapply Rlt_le_trans; [exact Hr|eapply Rle_trans; [apply Rmin_r|apply Rmin_r]]).
  rewrite Hc. destruct (HV r A0) as [-> | ->].
  - specialize (K1 r A1). lra.
  - specialize (K2 r A2). replace (g r - f c) with ((g r - g c) + - (f c - g c)) by ring.
    eapply Rle_lt_trans; [apply Rabs_triang|]. rewrite Rabs_Ropp. lra.
Qed.
Lemma one_piece V f c d0 : continuity_pt f c -> 0 < d0 -> (forall r, Rabs (r - c) < d0 -> V r = f r) -> jumps_at_most 0 V c.
Proof.
  intros Hf Hd HV. apply (join_jump V f f c 0 d0); try assumption; try lra.
  - intros r Hr. left. apply HV. exact Hr.
  - apply HV. rewrite Rminus_diag_eq, Rabs_R0 by reflexivity. exact Hd.
  - rewrite Rminus_diag_eq, Rabs_R0 by reflexivity. lra.
Qed.
Lemma expsum_cont l x : continuity_pt (expsum l) x.
Proof. apply derivable_continuous_pt. exists (dexpsum l x). apply expsum_deriv. Qed.
Lemma short_cont r : 0 < r -> continuity_pt w_short r.
Proof.
  intros Hr. unfold w_short. apply continuity_pt_mult.
  - unfold bare_coulomb. apply continuity_pt_filterlim. apply (ex_derive_continuous (fun r => 74 * 74 * elementary_charge ^ 2 / (4 * PI * vacuum_permittivity * r))).
    auto_derive. pose proof PI_RGT_0. pose proof cEPS0_pos as E. rewrite cEPS0_spec in E.
    set (e := vacuum_permittivity) in *. clearbody e. apply Rgt_not_eq. apply Rmult_lt_0_compat; [apply Rmult_lt_0_compat; [|exact E]|exact Hr]. lra.
  - apply (continuity_pt_comp (fun r => r / screening_length 74 74 ZBL) (expsum (screening_terms ZBL))); [|apply expsum_cont].
    unfold Rdiv. apply continuity_pt_mult; [apply derivable_continuous_pt, derivable_pt_id|apply continuity_pt_const; intros a b; reflexivity].
Qed.
Lemma scaled_cont f r : continuity f -> continuity_pt (fun r => f (r / angstrom) * electronvolt) r.
Proof.
  intros Hf. apply continuity_pt_mult; [|apply continuity_pt_const; intros a b; reflexivity].
  apply (continuity_pt_comp (fun r => r / angstrom) f); [|apply Hf].
  unfold Rdiv. apply continuity_pt_mult; [apply derivable_continuous_pt, derivable_pt_id|apply continuity_pt_const; intros a b; reflexivity].
Qed.
Lemma mid_cont : continuity w_mid.
Proof.
  intros x. apply continuity_pt_filterlim. apply (ex_derive_continuous w_mid). unfold w_mid. auto_derive. exact I.
Qed.
Lemma ramp_cont d : continuity (ramp3 d).
Proof.
  intros x. unfold ramp3.
  apply (continuity_pt_comp (fun x => (d - x + Rabs (d - x)) / 2) (fun y => y ^ 3)); [|apply derivable_continuous_pt, derivable_pt_pow].
  assert (L : continuity_pt (fun x => d - x) x) by (apply continuity_pt_minus; [apply continuity_pt_const; intros a b; reflexivity|apply derivable_continuous_pt, derivable_pt_id]).
  unfold Rdiv. apply continuity_pt_mult; [|apply continuity_pt_const; intros a b; reflexivity].
  apply continuity_pt_plus; [exact L|]. apply (continuity_pt_comp (fun x => d - x) Rabs); [exact L|apply Rcontinuity_abs].
Qed.
Lemma long_cont : continuity w_long.
Proof.
  assert (T : forall c d x, continuity_pt (fun x => c * ramp3 d x) x).
  { intros c d x. apply continuity_pt_mult; [apply continuity_pt_const; intros a b; reflexivity|apply ramp_cont]. }
  intros x. unfold w_long. 
  repeat match goal with
  | |- continuity_pt (fun x => @?f x + @?g x) ?y => apply (continuity_pt_plus f g y)
  | |- continuity_pt (fun x => @?f x - @?g x) ?y => apply (continuity_pt_minus f g y)
  end; apply T.
Qed.

Lemma ramp_zero d x : d <= x -> ramp3 d x = 0.
Proof. intros H. unfold ramp3. destruct (Rle_lt_or_eq_dec d x H) as [L| ->]; [rewrite Rabs_left by lra; field|rewrite Rminus_diag_eq, Rabs_R0 by reflexivity; field]. Qed.
Lemma ramp_below d x : x <= d -> ramp3 d x = (d - x) ^ 3.
Proof. intros H. unfold ramp3. rewrite Rabs_right by lra. field. Qed.
Lemma long_zero x : 42689 / 10000 <= x -> w_long x = 0.
Proof. intros H. unfold w_long. rewrite !ramp_zero by lra. ring. Qed.
Lemma jump2 : Rabs (w_mid w_x2 - w_long w_x2) <= / 10 ^ 9.
Proof.
  assert (Hx : 2 <= w_x2 <= 22 / 10) by (unfold w_x2; lra).
  unfold w_mid, w_long. rewrite !ramp_below by lra. unfold w_x2. apply Rabs_le. split; lra.
Qed.

Definition w_xi : R := w_x1 * angstrom / screening_length 74 74 ZBL.
Lemma power_bounds : 2691059470 / 10 ^ 9 <= Rpower 74 (23 / 100) <= 2691059471 / 10 ^ 9.
Proof.
  set (y := Rpower 74 (23 / 100)). assert (Hy : 0 < y) by apply Rpower_gt0.
  assert (E : y ^ 100 = 74 ^ 23).
  { unfold y. rewrite <- Rpower_pow by apply Rpower_gt0. rewrite Rpower_mult. rewrite <- (Rpower_pow 23 74) by lra. f_equal. rewrite !INR_IZR_INZ. cbn [Z.of_nat]. field. }
  assert (C : forall z : Z, (IZR z / 10 ^ 9) ^ 100 * 10 ^ 900 = IZR (z ^ 100)).
  { intros z. unfold Rdiv. rewrite Rpow_mult_distr. rewrite pow_inv, <- pow_mult. change (9 * 100)%nat with 900%nat.
    rewrite Rmult_assoc, Rinv_l by (apply pow_nonzero; lra). rewrite Rmult_1_r, pow_IZR. reflexivity. }
  assert (P9 : 0 < 10 ^ 900) by (apply pow_lt; lra).
  assert (EZ : 74 ^ 23 * 10 ^ 900 = IZR (74 ^ 23 * 10 ^ 900)) by (rewrite mult_IZR; rewrite !pow_IZR; reflexivity).
  split.
  - destruct (Rle_or_lt (2691059470 / 10 ^ 9) y) as [H|H]; [exact H|exfalso].
    pose proof (pow_incr_strict y _ 99 Hy H) as K. rewrite E in K. apply (Rmult_lt_compat_r (10 ^ 900) _ _ P9) in K. rewrite C, EZ in K. apply lt_IZR in K. revert K. apply Z.le_ngt. vm_compute. discriminate.
  - destruct (Rle_or_lt y (2691059471 / 10 ^ 9)) as [H|H]; [exact H|exfalso].
    pose proof (pow_incr_strict (2691059471 / 10 ^ 9) y 99 ltac:(lra) H) as K. rewrite E in K. apply (Rmult_lt_compat_r (10 ^ 900) _ _ P9) in K. rewrite C, EZ in K. apply lt_IZR in K. revert K. apply Z.le_ngt. vm_compute. discriminate.
Qed.
Lemma w_length : screening_length 74 74 ZBL = 88534 / 100000 * bohr_radius / (2 * Rpower 74 (23 / 100)).
Proof.
  cbn [screening_length]. cbv zeta. rewrite cA0_spec, !nlit_neg. change (10 ^ 5)%Z with 100000%Z. change (10 ^ 2)%Z with 100%Z. toR.
  rewrite npowf_pos by lra. f_equal. ring.
Qed.
Lemma xi_bounds : 126369842137 / 10 ^ 10 <= w_xi <= 126369842188 / 10 ^ 10.
Proof.
  unfold w_xi. rewrite w_length. pose proof power_bounds as P. set (y := Rpower 74 (23 / 100)) in *.
  replace (w_x1 * angstrom / (88534 / 100000 * bohr_radius / (2 * y))) with (y * (2 * w_x1 * angstrom / (88534 / 100000 * bohr_radius))).
  2: { field. split; [lra|]. rewrite <- cA0_spec. pose proof cA0_pos. lra. }
  set (K := 2 * w_x1 * angstrom / (88534 / 100000 * bohr_radius)).
  assert (HK : 46959141389 / 10 ^ 10 <= K <= 46959141390 / 10 ^ 10) by (unfold K, w_x1, angstrom, bohr_radius; lra).
  clearbody K. split.
  - apply Rle_trans with (2691059470 / 10 ^ 9 * (46959141389 / 10 ^ 10)); [lra|]. apply Rmult_le_compat; lra.
  - apply Rle_trans with (2691059471 / 10 ^ 9 * (46959141390 / 10 ^ 10)); [apply Rmult_le_compat; lra|lra].
Qed.
Lemma jump1 : Rabs (w_short (w_x1 * angstrom) - w_mid w_x1 * electronvolt) <= 3 / 10 * electronvolt.
Proof.
  unfold w_short. fold w_xi. pose proof xi_bounds as X. set (xi := w_xi) in *. clearbody xi.
  pose proof angstrom_pos as HA. pose proof ev_pos as HE. pose proof PI_bounds as HP.
  pose proof (exp_near _ _ _ (20162 / 100000 * xi) exp_w0a ltac:(lra) ltac:(lra)) as E0.
  pose proof (exp_near _ _ _ (40290 / 100000 * xi) exp_w1a ltac:(lra) ltac:(lra)) as E1.
  pose proof (exp_near _ _ _ (94229 / 100000 * xi) exp_w2a ltac:(lra) ltac:(lra)) as E2.
  assert (E3 : 0 <= exp (- (31998 / 10000 * xi)) <= / 10 ^ 9).
  { split; [left; apply exp_pos|]. apply Rle_trans with (exp (- (59538519 / 5000000) + - (59538519 / 5000000))).
    - left. apply exp_increasing. lra.
    - rewrite exp_plus. pose proof exp_w2a as W. pose proof (exp_pos (- (59538519 / 5000000))).
      apply Rle_trans with (673829408 / 100000000000000 * (673829408 / 100000000000000)); [apply Rmult_le_compat; lra|lra]. }
  assert (S : 39307 / 10 ^ 7 <= expsum (screening_terms ZBL) xi <= 39309 / 10 ^ 7).
  { unfold expsum, Rsum. cbn [screening_terms map fold_right fst snd].
    replace (- (20162 / 100000) * xi) with (- (20162 / 100000 * xi)) by ring. replace (- (40290 / 100000) * xi) with (- (40290 / 100000 * xi)) by ring.
    replace (- (94229 / 100000) * xi) with (- (94229 / 100000 * xi)) by ring. replace (- (31998 / 10000) * xi) with (- (31998 / 10000 * xi)) by ring. lra. }
  set (s := expsum (screening_terms ZBL) xi) in *. clearbody s. clear E0 E1 E2 E3 X xi.
  assert (B : bare_coulomb 74 74 (w_x1 * angstrom) = (74 * 74 * elementary_charge / (4 * vacuum_permittivity * w_x1 * angstrom)) / PI * electronvolt).
  { unfold bare_coulomb, electronvolt. pose proof cEPS0_pos as E. rewrite cEPS0_spec in E. field. unfold w_x1. repeat split; lra. }
  rewrite B. set (q := 74 * 74 * elementary_charge / (4 * vacuum_permittivity * w_x1 * angstrom)).
  assert (Hq : 22519759 / 100 <= q <= 22519761 / 100) by (unfold q, elementary_charge, vacuum_permittivity, w_x1, angstrom; lra).
  clearbody q.
  assert (HM : 28202 / 100 <= w_mid w_x1 <= 28204 / 100) by (unfold w_mid, w_x1; lra).
  set (m := w_mid w_x1) in *. clearbody m.
  replace (q / PI * electronvolt * s - m * electronvolt) with ((q * s / PI - m) * electronvolt) by (field; lra).
  rewrite Rabs_mult, (Rabs_right electronvolt) by lra. apply Rmult_le_compat_r; [lra|]. apply Rabs_le.
  assert (QS : 22519759 / 100 * (39307 / 10 ^ 7) <= q * s <= 22519761 / 100 * (39309 / 10 ^ 7)) by (split; apply Rmult_le_compat; lra).
  assert (QP : q * s / PI * PI = q * s) by (field; lra). set (v := q * s / PI) in *.
  split.
  - apply Rnot_lt_le. intros L. assert (v * PI <= (m - 3 / 10) * PI) by (apply Rmult_le_compat_r; lra).
    assert ((m - 3 / 10) * PI <= (28204 / 100 - 3 / 10) * (31415927 / 10000000)) by (apply Rmult_le_compat; lra). lra.
  - apply Rnot_lt_le. intros L. assert ((m + 3 / 10) * PI <= v * PI) by (apply Rmult_le_compat_r; lra).
    assert ((28202 / 100 + 3 / 10) * (31415926 / 10000000) <= (m + 3 / 10) * PI) by (apply Rmult_le_compat; lra). lra.
Qed.
