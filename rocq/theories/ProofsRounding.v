(** * ProofsRounding.v - energies in binary64. *)
From Coq Require Import ZArith List Bool Reals Lra Lia Floats.SpecFloat.
From Flocq Require Import Core BinarySingleNaN.
From Verif Require Import ProofsFlight Num NumSF NumB ProofsFloat SpecFloat64 ModelTypes ModelConsts ModelParticle ModelInteractions
  ModelGeometry ModelMaterial ModelBca Spec ProofsBase ProofsBca ProofsStep.
Import ListNotations.
Open Scope R_scope.

Lemma u64_val : u64 = / 9007199254740992.
Proof. reflexivity. Qed.
Lemma u64_small : 0 < u64 < / 1000000.
Proof. rewrite u64_val. lra. Qed.

Section Rounding.
  Context (lm : LibmB) (SL : sane_libm lm).
  #[local] Instance NB : Num f64 := NumB lm.

  Lemma four : is_finite (@nZ f64 NB 4) = true /\ B2R (@nZ f64 NB 4) = 4.
  Proof.
    change (@nZ f64 NB 4) with (of_sf (sf_lit 4 0)).
    assert (E : B2SF (of_sf (sf_lit 4 0)) = S754_finite false 4503599627370496 (-50)) by (rewrite of_sf_valid; reflexivity).
    split.
    - rewrite <- is_finite_SF_B2SF, E. reflexivity.
    - rewrite <- SF2R_B2SF, E. unfold SF2R, F2R. cbn. lra.
  Qed.
  Lemma zero : @nZ f64 NB 0 = b0.
  Proof. apply B2SF_inj. change (@nZ f64 NB 0) with (of_sf (sf_lit 0 0)). rewrite of_sf_valid; reflexivity. Qed.

  (** the kinematic factor 4 Ma Mb / (Ma + Mb)^2 as computed *)
  Definition factor (Ma Mb : f64) : f64 := nZ 4 *! (Ma *! Mb) /! npowi (Ma +! Mb) 2.

  Lemma bp400 : 0 < bpow radix2 (-400).
  Proof. apply bpow_gt_0. Qed.
  Lemma factor_ok Ma Mb : plain_mass Ma -> plain_mass Mb -> same_or_apart Ma Mb ->
    is_finite (factor Ma Mb) = true /\ 0 <= B2R (factor Ma Mb) <= 1.
  Proof.
    intros (Fa & La & Ua) (Fb & Lb & Ub) HM. destruct four as [F4 E4].
    unfold factor. change (@nmul f64 NB) with (Bmult (prec:=prec) (emax:=emax) mode_NE).
    change (@nadd f64 NB) with (Bplus (prec:=prec) (emax:=emax) mode_NE).
    change (@ndiv f64 NB) with (Bdiv (prec:=prec) (emax:=emax) mode_NE).
    change (@npowi f64 NB) with (lb_powi lm). rewrite (sane_square _ SL).
    generalize dependent (@nZ f64 NB 4). intros c4 F4 E4.
    set (a := B2R Ma) in *. set (b := B2R Mb) in *.
    pose proof bp400 as B0. pose proof u64_small as Hu.
    assert (Hab : bpow radix2 (-800) <= a * b <= bpow radix2 800).
    { replace (-800)%Z with (-400 + -400)%Z by lia. replace 800%Z with (400 + 400)%Z by lia. rewrite !bpow_plus. split.
      - apply Rmult_le_compat; lra.
      - apply Rmult_le_compat; lra. }
    assert (Ha0 : 0 < a) by lra. assert (Hb0 : 0 < b) by lra.
    assert (Hab0 : 0 < a * b) by (apply Rmult_lt_0_compat; lra).
    (* the product *)
    destruct (mul_ok Ma Mb Fa Fb) as [FP EP].
    { apply no_overflow_bpow with 800%Z; [lia|]. fold a b. rewrite Rabs_pos_eq by lra. lra. }
    fold a b in EP. set (P := Bmult mode_NE Ma Mb) in *.
    assert (N800 : bpow radix2 (-1022) <= bpow radix2 (-800)) by (apply bpow_le; lia).
    pose proof (rd_bounds (a * b) ltac:(lra)) as BP. rewrite <- EP in BP.
    assert (UP : B2R P <= bpow radix2 800).
    { rewrite EP. rewrite <- (rd_bpow 800) by lia. apply rd_mono. lra. }
    assert (LP : bpow radix2 (-800) <= B2R P).
    { rewrite EP. rewrite <- (rd_bpow (-800)) by lia. apply rd_mono. lra. }
    assert (P0 : 0 < B2R P) by (pose proof (bpow_gt_0 radix2 (-800)); lra).
    destruct (mul_ok c4 P F4 FP) as [FQ EQ].
    { apply no_overflow_bpow with 802%Z; [lia|]. rewrite E4. replace 802%Z with (2 + 800)%Z by lia. rewrite bpow_plus.
      change (bpow radix2 2) with 4. rewrite Rabs_pos_eq by lra. lra. }
    set (Q := Bmult mode_NE c4 P) in *.
    assert (EQ' : B2R Q = B2R P * 4).
    { rewrite EQ, E4. replace (4 * B2R P) with (B2R P * bpow radix2 2) by (change (bpow radix2 2) with 4; ring).
      rewrite rd_scale; [rewrite rd_id; reflexivity| |lia]. rewrite Rabs_pos_eq by lra. lra. }
    clear EQ.
    (* the sum and its square *)
    assert (Hs : bpow radix2 (-400) <= a + b <= bpow radix2 401).
    { split; [lra|]. replace 401%Z with (1 + 400)%Z by lia. rewrite bpow_plus. change (bpow radix2 1) with 2. lra. }
    destruct (add_ok Ma Mb Fa Fb) as [FS ES].
    { apply no_overflow_bpow with 401%Z; [lia|]. fold a b. rewrite Rabs_pos_eq by lra. lra. }
    fold a b in ES. set (S := Bplus mode_NE Ma Mb) in *.
    assert (N400 : bpow radix2 (-1022) <= bpow radix2 (-400)) by (apply bpow_le; lia).
    pose proof (rd_bounds (a + b) ltac:(lra)) as BS. rewrite <- ES in BS.
    assert (US : B2R S <= bpow radix2 401) by (rewrite ES, <- (rd_bpow 401) by lia; apply rd_mono; lra).
    assert (LS : bpow radix2 (-400) <= B2R S) by (rewrite ES, <- (rd_bpow (-400)) by lia; apply rd_mono; lra).
    assert (HSS : bpow radix2 (-800) <= B2R S * B2R S <= bpow radix2 802).
    { replace (-800)%Z with (-400 + -400)%Z by lia. replace 802%Z with (401 + 401)%Z by lia. rewrite !bpow_plus. split; apply Rmult_le_compat; lra. }
    destruct (mul_ok S S FS FS) as [FT ET].
    { apply no_overflow_bpow with 802%Z; [lia|]. rewrite Rabs_pos_eq by (pose proof (bpow_gt_0 radix2 (-800)); lra). lra. }
    set (T := Bmult mode_NE S S) in *.
    pose proof (rd_bounds (B2R S * B2R S) ltac:(lra)) as BT. rewrite <- ET in BT.
    assert (LT : bpow radix2 (-800) <= B2R T) by (rewrite ET, <- (rd_bpow (-800)) by lia; apply rd_mono; lra).
    assert (T0 : 0 < B2R T) by (pose proof (bpow_gt_0 radix2 (-800)); lra).
    (* the quotient *)
    assert (Hq : B2R Q <= B2R T).
    { destruct HM as [E|HA].
      - fold a b in E. rewrite EQ', EP, ET, ES, <- E.
        assert (E2 : rd (a + a) = a + a).
        { replace (a + a) with (a * bpow radix2 1) by (change (bpow radix2 1) with 2; ring).
          rewrite rd_scale; [unfold a; rewrite rd_id; reflexivity| |lia]. rewrite Rabs_pos_eq; lra. }
        rewrite E2. replace ((a + a) * (a + a)) with (a * a * bpow radix2 2) by (change (bpow radix2 2) with 4; ring).
        rewrite rd_scale; [change (bpow radix2 2) with 4; lra| |lia].
        rewrite <- E in Hab. rewrite Rabs_pos_eq; pose proof (bpow_gt_0 radix2 (-800)); lra.
      - fold a b in HA. change (bpow radix2 (-25)) with (/ 33554432) in HA.
        assert (Hsq : / 33554432 * (a + b) * (/ 33554432 * (a + b)) <= (a - b) * (a - b)).
        { replace ((a - b) * (a - b)) with (Rabs (a - b) * Rabs (a - b)).
          - apply Rmult_le_compat; lra.
          - rewrite <- Rabs_mult. apply Rabs_pos_eq. apply Rle_0_sqr. }
        rewrite EQ'. rewrite u64_val in *.
        assert (H1 : (a + b) * (1 - / 9007199254740992) * ((a + b) * (1 - / 9007199254740992)) <= B2R S * B2R S).
        { apply Rmult_le_compat; lra. }
        set (X := (a + b) * (a + b)). assert (HX : 0 < X) by (unfold X; nra).
        assert (H2 : 4 * (a * b) <= X * (1 - / 33554432 * / 33554432)) by (unfold X; nra).
        assert (H3 : X * ((1 - / 9007199254740992) * (1 - / 9007199254740992)) <= B2R S * B2R S) by (unfold X; lra).
        set (Y := B2R S * B2R S) in *. set (ab := a * b) in *. lra. }
    destruct (div_ok Q T FQ) as [FR ER]; [lra| |].
    { apply no_overflow_bpow with 0%Z; [lia|]. change (bpow radix2 0) with 1.
      rewrite Rabs_pos_eq; [|apply Rlt_le, Rdiv_lt_0_compat; lra]. apply Rmult_le_reg_r with (B2R T); [lra|]. unfold Rdiv.
      rewrite Rmult_assoc, Rinv_l by lra. lra. }
    split; [exact FR|]. rewrite ER. split.
    - apply rd_nonneg. apply Rlt_le, Rdiv_lt_0_compat; lra.
    - change 1 with (bpow radix2 0). rewrite <- (rd_bpow 0) by lia. apply rd_mono. change (bpow radix2 0) with 1.
      apply Rmult_le_reg_r with (B2R T); [lra|]. unfold Rdiv. rewrite Rmult_assoc, Rinv_l by lra. lra.
  Qed.

  (** ** one collision *)
  Definition fair (x : f64) : Prop := is_nan x = true \/ Bleb b0 x = true.
  Lemma fair_cases x : fair x -> x = B754_nan \/ x = B754_infinity false \/ (fin x /\ 0 <= B2R x).
  Proof. intros [H|H]; [left; now destruct x|right; apply nn_cases, H]. Qed.
  Lemma fair_fin x : fin x -> 0 <= B2R x -> fair x.
  Proof. intros. right. apply nn_fin; assumption. Qed.
  (** a factor in [0,1] *)
  Definition unit_factor (f : f64) : Prop := fin f /\ 0 <= B2R f <= 1.
  Lemma mul_unit f x : unit_factor f -> fair x ->
    let y := Bmult mode_NE f x in fair y /\ (fin x -> fin y /\ 0 <= B2R y <= B2R x) /\ (is_nan x = true -> is_nan y = true).
  Proof.
    intros (Ff & L & U) Hx y. assert (K : fin x -> 0 <= B2R x -> fin y /\ 0 <= B2R y <= B2R x).
    { intros Fx H0. destruct (mul_ok f x Ff Fx) as [F1 E1].
      - apply no_overflow with x. rewrite Rabs_pos_eq; [|apply Rmult_le_pos; lra].
        rewrite <- (Rmult_1_l (B2R x)) at 2. apply Rmult_le_compat_r; lra.
      - fold y in F1, E1. split; [exact F1|]. rewrite E1. split.
        + apply rd_nonneg. apply Rmult_le_pos; lra.
        + apply rd_le_id. rewrite <- (Rmult_1_l (B2R x)) at 2. apply Rmult_le_compat_r; lra. }
    destruct (fair_cases x Hx) as [->|[->|[Fx H0]]].
    - split; [left; destruct f; reflexivity|]. split; [discriminate|]. destruct f; reflexivity.
    - split; [|split; discriminate]. destruct f as [s|s| |[] m e]; try discriminate; try (right; reflexivity); try (left; reflexivity).
      exfalso. cbn in L. apply (Rlt_not_le _ _ (F2R_lt_0 radix2 (Float radix2 (Zneg m) e) ltac:(reflexivity))). exact L.
    - destruct (K Fx H0) as (F1 & L1 & U1). split; [apply fair_fin; assumption|]. split; [auto|]. destruct x; discriminate.
  Qed.
  Lemma mul_comm (x y : f64) : Bmult mode_NE x y = Bmult mode_NE y x.
  Proof.
    destruct x as [sx|sx| |sx mx ex Hx], y as [sy|sy| |sy my ey Hy]; try reflexivity; try (cbn; now rewrite xorb_comm).
    apply B2SF_inj. rewrite !same_mul. cbn. rewrite xorb_comm, Pos.mul_comm, Z.add_comm. reflexivity.
  Qed.
  (** the rounded square of a sine *)
  Lemma sine_square s : is_nan s = true \/ (fin s /\ Rabs (B2R s) <= 1) ->
    Bmult mode_NE s s = B754_nan \/ unit_factor (Bmult mode_NE s s).
  Proof.
    intros [H|[F1 H]]; [left; now destruct s|right].
    assert (B : 0 <= B2R s * B2R s <= 1).
    { split; [apply Rle_0_sqr|]. rewrite <- (Rabs_pos_eq (B2R s * B2R s)) by apply Rle_0_sqr. rewrite Rabs_mult.
      replace 1 with (1 * 1) by ring. apply Rmult_le_compat; try apply Rabs_pos; assumption. }
    destruct (mul_ok s s F1 F1) as [F2 E2].
    - apply no_overflow_bpow with 0%Z; [lia|]. rewrite Rabs_pos_eq by lra. cbn. lra.
    - split; [exact F2|]. rewrite E2. split; [apply rd_nonneg; lra|].
      change 1 with (bpow radix2 0). rewrite <- (rd_bpow 0) by lia. apply rd_mono. cbn. lra.
  Qed.
  (** subtracting no more than there is *)
  Lemma take E r : fair E -> fair r -> (fin E -> is_nan r = true \/ (fin r /\ B2R r <= B2R E)) ->
    fair (Bplus mode_NE E (Bopp r)).
  Proof.
    intros HE Hr HL. destruct (fair_cases E HE) as [->|[->|[FE H0]]].
    - left. destruct r; reflexivity.
    - destruct r as [s|[]| |s m e]; try (right; reflexivity); try (left; reflexivity).
      
    - destruct (HL FE) as [Hn|[Fr Hle]].
      + left. destruct r; try discriminate. destruct E; reflexivity.
      + destruct (fair_cases r Hr) as [->|[->|[_ Hr0]]]; try discriminate.
        destruct (opp_ok r) as [Fo Eo]. destruct (add_ok E (Bopp r) FE) as [F1 E1].
        * rewrite Fo. exact Fr.
        * rewrite Eo. apply no_overflow with E. rewrite Rabs_pos_eq; lra.
        * apply fair_fin; [exact F1|]. rewrite E1, Eo. apply rd_nonneg. lra.
  Qed.
  Lemma collision_fair p1 p2 build bcg options r :
    plain_mass (p_m p1) -> plain_mass (p_m p2) -> same_or_apart (p_m p1) (p_m p2) -> fair (p_E p1) ->
    calculate_binary_collision build p1 p2 bcg options = Ok (Some r) ->
    fair (p_E p1 +! (-! bcr_recoil_energy r)) /\ fair (bcr_recoil_energy r) /\
    (fin (p_E p1) -> is_nan (bcr_recoil_energy r) = true \/
       (fin (bcr_recoil_energy r) /\ 0 <= B2R (bcr_recoil_energy r) <= B2R (p_E p1))).
  Proof.
    intros Ha Hb HM HE H. unfold calculate_binary_collision in H.
    apply bind_ok in H. destruct H as (ip & _ & H). apply bind_ok in H. destruct H as (si & _ & H).
    apply bind_ok in H. destruct H as (x0 & _ & H). apply bind_ok in H. destruct H as (theta & _ & H).
    destruct (nis_nan theta); [discriminate H|].
    assert (I : forall x y : BinaryCollisionResult f64, Ok (Some x) = Ok (Some y) -> x = y) by congruence. apply I in H. subst r.
    unfold collision_kinematics. cbn [bcr_recoil_energy].
    fold (factor (p_m p1) (p_m p2)). pose proof (factor_ok _ _ Ha Hb HM) as (Ff & Lf & Uf).
    set (f := factor (p_m p1) (p_m p2)) in *. set (s := nsin (theta /! nZ 2)). set (E := p_E p1) in *.
    change (@nmul f64 NB) with (Bmult (prec:=prec) (emax:=emax) mode_NE).
    change (@nadd f64 NB) with (Bplus (prec:=prec) (emax:=emax) mode_NE).
    change (@nneg f64 NB) with (Bopp (prec:=prec) (emax:=emax)).
    change (@npowi f64 NB) with (lb_powi lm). rewrite (sane_square _ SL).
    assert (Hs : is_nan s = true \/ (fin s /\ Rabs (B2R s) <= 1)) by apply (sane_sin _ SL).
    destruct (mul_unit f E (conj Ff (conj Lf Uf)) HE) as (G1 & G2 & G3). set (fE := Bmult mode_NE f E) in *.
    destruct (sine_square s Hs) as [EN|US].
    - rewrite EN. assert (EN' : Bmult mode_NE fE B754_nan = B754_nan) by now destruct fE. rewrite EN'. split; [left; now destruct E|]. split; [left; reflexivity|]. intros _. left. reflexivity.
    - rewrite (mul_comm fE). set (q := Bmult mode_NE s s) in *.
      destruct (mul_unit q fE US G1) as (K1 & K2 & K3). split; [|split; [exact K1|]].
      + apply take; [exact HE|exact K1|]. intros FE. right. destruct (G2 FE) as (F1 & B1). destruct (K2 F1) as (F2 & B2).
        split; [exact F2|]. lra.
      + intros FE. right. destruct (G2 FE) as (F1 & B1). destruct (K2 F1) as (F2 & B2). split; [exact F2|]. lra.
  Qed.

  (** ** the surface *)
  Lemma mul_plain a b : plain_number a -> plain_number b -> Bleb b0 (Bmult mode_NE a b) = true.
  Proof.
    intros [Fa Ha] [Fb Hb].
    destruct (Rlt_bool (Rabs (rd (B2R a * B2R b))) (bpow radix2 emax)) eqn:E.
    - destruct (mul_ok a b Fa Fb E) as [F1 E1]. apply nn_fin; [exact F1|]. rewrite E1. apply rd_nonneg, Rmult_le_pos; assumption.
    - pose proof (Bmult_correct prec emax _ _ mode_NE a b) as K. unfold rd in E. rewrite E in K.
      assert (N : is_nan (Bmult mode_NE a b) = false).
      { unfold binary_overflow in K. cbn [overflow_to_inf] in K. destruct (Bmult mode_NE a b); [reflexivity..|discriminate K|reflexivity]. }
      destruct a as [sa|sa| |[] ma ea Ba], b as [sb|sb| |[] mb eb Bb]; try discriminate Fa; try discriminate Fb; try reflexivity;
        try (exfalso; cbn in Ha; apply (Rlt_not_le _ _ (F2R_lt_0 radix2 (Float radix2 (Zneg ma) ea) ltac:(reflexivity))); exact Ha);
        try (exfalso; cbn in Hb; apply (Rlt_not_le _ _ (F2R_lt_0 radix2 (Float radix2 (Zneg mb) eb) ltac:(reflexivity))); exact Hb).
      cbn in K. unfold binary_overflow in K. cbn in K.
      assert (B2SF (Bmult mode_NE (B754_finite false ma ea Ba) (B754_finite false mb eb Bb)) = S754_infinity false) as K'.
      { exact K. }
      destruct (Bmult mode_NE _ _) as [s|s| |s m e]; cbn in K'; try discriminate. injection K' as ->. reflexivity.
  Qed.

  Lemma add_nn (x y : f64) : Bleb b0 x = true -> Bleb b0 y = true -> Bleb b0 (Bplus mode_NE x y) = true.
  Proof.
    intros Hx Hy. destruct (nn_cases x Hx) as [->|[Fx Lx]]; destruct (nn_cases y Hy) as [->|[Fy Ly]]; [reflexivity| | |].
    - destruct y as [s|s| |s m e]; try discriminate; reflexivity.
    - destruct x as [s|s| |s m e]; try discriminate; reflexivity.
    - destruct (Rlt_bool (Rabs (rd (B2R x + B2R y))) (bpow radix2 emax)) eqn:E.
      + destruct (add_ok x y Fx Fy E) as [F1 E1]. apply nn_fin; [exact F1|]. rewrite E1. apply rd_nonneg. lra.
      + pose proof (Bplus_correct prec emax _ _ mode_NE x y Fx Fy) as K. unfold rd in E. rewrite E in K. destruct K as [K S].
        assert (SP : Bsign x = false).
        { destruct x as [[]|s| |[] m e H]; try discriminate Fx; try reflexivity.
          - exfalso. apply Rlt_bool_false_inv in E || idtac.
            destruct (Rlt_bool_spec (Rabs (round radix2 fmt (round_mode mode_NE) (B2R (B754_zero true : f64) + B2R y))) (bpow radix2 emax)) as [|E']; [discriminate|].
            replace (B2R (B754_zero true : f64) + B2R y) with (B2R y) in E' by (cbn; ring).
            change (round radix2 fmt (round_mode mode_NE) (B2R y)) with (rd (B2R y)) in E'. rewrite rd_id in E'. pose proof (below_max y). lra.
          - exfalso. cbn in Lx. apply (Rlt_not_le _ _ (F2R_lt_0 radix2 (Float radix2 (Zneg m) e) ltac:(reflexivity))). exact Lx. }
        rewrite SP in K. unfold binary_overflow in K. cbn [overflow_to_inf] in K.
        destruct (Bplus mode_NE x y) as [s|s| |s m e]; cbn in K; try discriminate. injection K as ->. reflexivity.
  Qed.
  Lemma sum_nn l acc : Bleb b0 acc = true -> Forall (fun x => Bleb b0 x = true) l -> Bleb b0 (fold_left (Bplus mode_NE) l acc) = true.
  Proof. revert acc. induction l as [|a l IH]; intros acc H HF; [exact H|]. inversion HF; subst. cbn. apply IH; [apply add_nn; assumption|assumption]. Qed.
  Lemma weighted_nn vs cs : Forall plain_number vs -> Forall plain_number cs -> Bleb b0 (weighted_sum vs cs) = true.
  Proof.
    intros Hv Hc. unfold weighted_sum, nsum. rewrite zero. change (@nadd f64 NB) with (Bplus (prec:=prec) (emax:=emax) mode_NE).
    apply sum_nn; [reflexivity|]. unfold zip. revert cs Hc. induction vs as [|v vs IH]; intros [|c cs] Hc; cbn; constructor.
    - inversion Hv; inversion Hc; subst. apply mul_plain; assumption.
    - inversion Hv; inversion Hc; subst. apply IH; assumption.
  Qed.
  Lemma half : B2SF (@nlit f64 NB 5 (-1)) = S754_finite false 4503599627370496 (-53).
  Proof. change (@nlit f64 NB 5 (-1)) with (of_sf (sf_lit 5 (-1))). rewrite of_sf_valid; reflexivity. Qed.
  Lemma half_nn x : Bleb b0 x = true -> Bleb b0 (Bmult mode_NE (@nlit f64 NB 5 (-1)) x) = true.
  Proof.
    intro H. pose proof half as E. generalize dependent (@nlit f64 NB 5 (-1)). intros h E.
    assert (U : unit_factor h).
    { split; [rewrite <- is_finite_SF_B2SF, E; reflexivity|]. rewrite <- SF2R_B2SF, E. unfold SF2R, F2R. cbn. lra. }
    destruct (nn_cases x H) as [->|[Fx Hx]].
    - destruct h as [s|s| |[] m e]; cbn in E; try discriminate. reflexivity.
    - destruct (mul_unit h x U (or_intror H)) as (_ & K & _). destruct (K Fx) as (F1 & B1). apply nn_fin; [exact F1|apply B1].
  Qed.
  Lemma cost_nn mat ion p x y z Es : tame_target mat ion -> In (p_Es p) (p_Es ion :: mat_Es mat) ->
    actual_surface_binding_energy mat p x y z = Ok Es -> Bleb b0 Es = true.
  Proof.
    intros [_ _ HS HC [c HM]] Hin H. unfold actual_surface_binding_energy in H. apply bind_ok in H. destruct H as (cs & Hc & H).
    apply HC in Hc. rewrite HM in H. pose proof (proj1 (Forall_forall _ _) HS _ Hin) as HP.
    assert (HP' : Bleb b0 (p_Es p) = true) by (destruct HP; apply nn_fin; assumption).
    assert (HW : Bleb b0 (weighted_sum (mat_Es mat) cs) = true) by (apply weighted_nn; [inversion HS; assumption|assumption]).
    assert (H0 : Bleb b0 (@nZ f64 NB 0) = true) by (rewrite zero; reflexivity).
    assert (I : forall x y : f64, Ok x = Ok y -> x = y) by congruence. apply I in H. subst Es.
    destruct c; [| |]; try exact HP'.
    - unfold sbe_target. destruct (p_Es p ==! nZ 0); assumption.
    - unfold sbe_average. destruct (_ || _); [assumption|]. change (@nmul f64 NB) with (Bmult (prec:=prec) (emax:=emax) mode_NE).
      apply half_nn. change (@nadd f64 NB) with (Bplus (prec:=prec) (emax:=emax) mode_NE). apply add_nn; assumption.
  Qed.

  Lemma take_smaller E Es : Bleb b0 E = true -> Bleb b0 Es = true -> Bltb Es E = true ->
    Bleb b0 (Bplus mode_NE E (Bopp Es)) = true.
  Proof.
    intros HE HEs L. destruct (nn_cases Es HEs) as [->|[Fs Ls]].
    - destruct E as [s|[]| |[] m e]; discriminate.
    - destruct (nn_cases E HE) as [->|[FE LE]].
      + destruct Es as [s|s| |s m e]; try discriminate; reflexivity.
      + apply (lt_fin Es E Fs FE) in L. destruct (opp_ok Es) as [Fo Eo].
        destruct (add_ok E (Bopp Es) FE) as [F1 E1].
        * rewrite Fo. exact Fs.
        * rewrite Eo. apply no_overflow with E. rewrite Rabs_pos_eq; lra.
        * apply nn_fin; [exact F1|]. rewrite E1, Eo. apply rd_nonneg. lra.
  Qed.
  Lemma surface_nn mat ion p p' : tame_target mat ion -> In (p_Es p) (p_Es ion :: mat_Es mat) ->
    Bleb b0 (p_E p) = true -> surface_binding_energy mat p = Ok p' -> Bleb b0 (p_E p') = true.
  Proof.
    intros T Hin HE H. unfold surface_binding_energy in H.
    apply bind_ok in H. destruct H as (Es & HEs & H). apply (cost_nn _ _ _ _ _ _ _ T Hin) in HEs.
    destruct (tame_model _ _ T) as [c HM]. rewrite HM in H.
    apply bind_ok in H. destruct H as (now & _ & H). apply bind_ok in H. destruct H as (before & _ & H).
    assert (I : forall x y : Particle f64, Ok x = Ok y -> x = y) by congruence.
    destruct (now && negb before).
    - destruct (p_backreflected p).
      + apply I in H. subst p'. exact HE.
      + apply bind_ok in H. destruct H as ([[x2 y2] z2] & _ & H). apply I in H. subst p'. cbn [set_p_E p_E].
        apply add_nn; assumption.
    - destruct (negb now && before); [|apply I in H; subst p'; exact HE].
      apply bind_ok in H. destruct H as ([[x2 y2] z2] & _ & H). cbv zeta in H.
      match type of H with context [if ?b then _ else Ok p] => destruct b end; [|apply I in H; subst p'; exact HE].
      destruct (Es <! p_E p) eqn:L; apply I in H; subst p'.
      + cbn [set_p_E p_E]. apply take_smaller; assumption.
      + exact HE.
  Qed.
  Lemma boundary_nn mat ion p p' : tame_target mat ion -> In (p_Es p) (p_Es ion :: mat_Es mat) ->
    Bleb b0 (p_E p) = true -> boundary_condition_planar mat p = Ok p' -> Bleb b0 (p_E p') = true.
  Proof.
    intros T Hin HE H. unfold boundary_condition_planar in H. apply bind_ok in H. destruct H as (ib & _ & H).
    assert (U : forall q : Particle f64, p_E (update_trajectory_tracker q) = p_E q /\ p_Es (update_trajectory_tracker q) = p_Es q).
    { intro q. unfold update_trajectory_tracker. destruct (p_track_trajectories q); split; reflexivity. }
    set (p1 := if negb (mat_inside_simulation_boundary mat (vx (p_pos p)) (vy (p_pos p)) (vz (p_pos p)))
               then update_trajectory_tracker (set_p_left true p) else p) in H.
    assert (E1 : p_E p1 = p_E p /\ p_Es p1 = p_Es p).
    { unfold p1. destruct (negb _); [|auto]. destruct (U (set_p_left true p)) as [-> ->]. auto. }
    set (p2 := if (p_E p <! p_Ec p) && negb (p_left p1) && ib then update_trajectory_tracker (set_p_stopped true p1) else p1) in H.
    assert (E2 : p_E p2 = p_E p /\ p_Es p2 = p_Es p).
    { unfold p2. destruct (_ && ib); [|auto]. destruct (U (set_p_stopped true p1)) as [-> ->]. exact E1. }
    destruct E2 as [E2 E2s]. destruct (negb (p_stopped p2) && negb (p_left p2)).
    - apply (surface_nn _ ion) in H; [exact H|exact T|rewrite E2s; exact Hin|rewrite E2; exact HE].
    - assert (I : forall x y : Particle f64, Ok x = Ok y -> x = y) by congruence. apply I in H. subst p'. rewrite E2. exact HE.
  Qed.

  (** ** a run *)
  Definition kind (mat : Material f64) (ion p : Particle f64) : Prop :=
    In (p_m p) (p_m ion :: mat_m mat) /\ In (p_Es p) (p_Es ion :: mat_Es mat).
  Definition sound (mat : Material f64) (ion p : Particle f64) : Prop := kind mat ion p /\ not_negative (p_E p).
  Definition loop_sound mat ion (cs : CollisionState f64) : Prop :=
    kind mat ion (cs_particle_1 cs) /\ fair (p_E (cs_particle_1 cs)) /\ Forall (sound mat ion) (cs_particles cs).
  Lemma after_frame k bcg r (p : Particle f64) : p_E (projectile_after k bcg r p) = p_E p +! (-! bcr_recoil_energy r) /\
    p_m (projectile_after k bcg r p) = p_m p /\ p_Es (projectile_after k bcg r p) = p_Es p.
  Proof. unfold projectile_after. destruct (_ && _); repeat split; reflexivity. Qed.
  Lemma step_sound mat ion build options k bcg cs rng n cs' n' : tame_target mat ion ->
    loop_sound mat ion cs -> collision_step build mat options k bcg cs rng n = Ok (cs', n') -> loop_sound mat ion cs'.
  Proof.
    intros T (Hk & Hf & HF) H. apply collision_step_inv in H. destruct H as (i & p2 & barrier & Hc & Hb & [[_ ->]|[_ H]]).
    - split; [exact Hk|]. split; assumption.
    - destruct H as (r & bulk & keep & Hr & _ & Hkeep & ->). apply partner_inv in Hc.
      destruct Hc as (_ & _ & _ & _ & _ & _ & Ha & _). destruct Ha as (_ & Am & AEc & AEs & _).
      apply nth_error_In in Am, AEc, AEs.
      destruct T as [[MP MA] TC TS _ _]. destruct Hk as [Hm HEs].
      pose proof (proj1 (Forall_forall _ _) MP) as MP'.
      destruct (collision_fair (cs_particle_1 cs) p2 build bcg options r) as (C1 & C2 & _).
      + apply MP', Hm.
      + apply MP'. right. exact Am.
      + apply MA; assumption.
      + exact Hf.
      + exact Hr.
      + destruct (after_frame k bcg r (cs_particle_1 cs)) as (EE & Em & Es).
        split; [|split]; cbn [cs_particle_1 cs_particles].
        * unfold kind. rewrite Em, Es. split; assumption.
        * rewrite EE. exact C1.
        * destruct keep; [|exact HF]. constructor; [|exact HF]. apply keep_recoil_true in Hkeep. destruct Hkeep as [_ Hlt].
          split; [split; right; assumption|].
          change (p_Ec (recoil_after bcg r bulk p2)) with (p_Ec p2) in Hlt.
          apply (lt_nn (p_Ec p2)); [|exact Hlt]. pose proof (proj1 (Forall_forall _ _) TC _ AEc) as [F1 L1]. apply nn_fin; assumption.
  Qed.
  Lemma subtract_nn mat options p dist x0 scZ sci p' loss : fair (p_E p) ->
    subtract_electronic_stopping_energy mat options p dist x0 scZ sci = Ok (p', loss) -> Bleb b0 (p_E p') = true.
  Proof.
    intros HE H. unfold subtract_electronic_stopping_energy in H.
    apply bind_ok in H. destruct H as (u & Ha & H). apply rassert_ok in Ha.
    assert (N : is_nan (p_E p) = false) by (apply negb_true_iff; exact Ha).
    assert (I : forall (x y : Particle f64) (a b : f64), Ok (x, a) = Ok (y, b) -> x = y) by congruence.
    destruct (mat_inside mat _ _ _).
    - apply bind_ok in H. destruct H as (d & _ & H). apply bind_ok in H. destruct H as (u' & Hn & H).
      apply rassert_ok in Hn. apply I in H. subst p'.
      set (E := p_E p +! (-! d)) in *. assert (N' : is_nan E = false) by (apply negb_true_iff; exact Hn).
      rewrite zero. destruct (E <! b0) eqn:L; [reflexivity|]. cbn [p_E set_p_E]. apply not_lt_nn; assumption.
    - apply I in H. subst p'. destruct HE as [HE|HE]; [congruence|exact HE].
  Qed.
  Lemma bca_step_sound mat ion build options p particles rng n p' particles' n' : tame_target mat ion -> active p ->
    sound mat ion p -> Forall (sound mat ion) particles ->
    bca_step build mat options p particles rng n = Ok ((p', particles'), n') ->
    sound mat ion p' /\ Forall (sound mat ion) particles'.
  Proof.
    intros T Hact [Hk HE] HF H. pose proof (bca_step_ok _ _ _ _ _ _ _ _ _ _ Hact H) as [HR _]. apply bca_step_inv in H.
    destruct H as (p0 & bcgs & n1 & cs & bcg0 & q & dist & q' & loss & Hd & Hl & _ & Hadv & Hsub & Hb & ->).
    apply determine_frame in Hd.
    assert (E0 : p_E p0 = p_E p /\ p_m p0 = p_m p /\ p_Es p0 = p_Es p) by (subst p0; destruct (p_first_step p); repeat split; reflexivity).
    destruct E0 as (E0 & M0 & S0).
    assert (LS : loop_sound mat ion cs).
    { eapply (collision_loop_invariant (loop_sound mat ion)); [|  |exact Hl].
      - intros. eapply step_sound; eassumption.
      - split; cbn [cs_particle_1 cs_particles]; [unfold kind; rewrite M0, S0; exact Hk|]. split; [rewrite E0; right; exact HE|exact HF]. }
    destruct LS as (K1 & F1 & P1). split; [|exact P1].
    assert (Eq : p_E q = p_E (cs_particle_1 cs) /\ p_m q = p_m (cs_particle_1 cs) /\ p_Es q = p_Es (cs_particle_1 cs)).
    { pose proof (f_equal fst Hadv) as Hq. cbn [fst] in Hq. subst q. unfold advance, update_trajectory_tracker.
      destruct (p_E (cs_particle_1 cs) >! p_Ec (cs_particle_1 cs)); [destruct (p_track_trajectories _)|]; repeat split; reflexivity. }
    destruct Eq as (Eq & Mq & Sq).
    pose proof (subtract_nn _ _ _ _ _ _ _ _ _ (eq_ind_r fair F1 Eq) Hsub) as Nq.
    apply subtract_frame in Hsub. destruct Hsub as (E' & ->).
    destruct (loss_tracker_frame options (cs_total_energy_lost_to_recoils cs) loss (set_p_E E' q)) as [l Hlt].
    rewrite Hlt in Hb. split.
    - destruct HR as [HI _]. destruct HI as (I1 & _ & _ & I4 & _). unfold kind. rewrite <- I1, <- I4. exact Hk.
    - refine (boundary_nn mat ion _ _ T _ _ Hb); [|exact Nq]. cbn [p_Es set_p_energies set_p_E]. rewrite Sq. apply K1.
  Qed.
  Lemma run_sound mat ion build options fuel rng n out n' : tame_target mat ion -> not_negative (p_E ion) ->
    single_ion_bca build mat options fuel ion rng n = Ok (out, n') -> Forall (fun p => not_negative (p_E p)) out.
  Proof.
    intros T HE H. apply Forall_impl with (P := sound mat ion); [intros p [_ K]; exact K|].
    eapply run_invariant; [|  |exact H].
    - intros. eapply bca_step_sound; eassumption.
    - split; [split; left; reflexivity|exact HE].
  Qed.
End Rounding.
