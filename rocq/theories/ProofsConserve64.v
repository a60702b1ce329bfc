(** * ProofsConserve64.v - rounding errors of the energy balance of a collision *)
From Coq Require Import ZArith List Bool Reals Lra Lia Floats.SpecFloat.
From Flocq Require Import Core BinarySingleNaN.
From Verif Require Import Num NumSF NumB ProofsFloat SpecFloat64 SpecConserve64 ModelTypes ModelConsts ModelParticle ModelInteractions
  ModelGeometry ModelMaterial ModelBca Spec ProofsBase ProofsBca ProofsStep ProofsUnit64 ProofsRounding.
Import ListNotations.
Open Scope R_scope.

Lemma prod_rel x X y Y al be p q : 0 <= X -> 0 <= Y -> 0 <= al -> 0 <= be -> 0 <= p -> 0 <= q ->
  Rabs (x - X) <= al * X + p -> Rabs (y - Y) <= be * Y + q ->
  Rabs (x * y - X * Y) <= (al + be + al * be) * (X * Y) + p * (Y * (1 + be)) + q * (X * (1 + al)) + p * q.
Proof.
  intros HX HY Ha Hb Hp Hq H1 H2.
  replace (x * y - X * Y) with ((x - X) * y + X * (y - Y)) by ring.
  eapply Rle_trans; [apply Rabs_triang|]. rewrite !Rabs_mult, (Rabs_pos_eq X) by exact HX.
  assert (A : Rabs y <= Y * (1 + be) + q).
  { replace y with (Y + (y - Y)) by ring. eapply Rle_trans; [apply Rabs_triang|]. rewrite (Rabs_pos_eq Y) by exact HY. lra. }
  eapply Rle_trans with ((al * X + p) * (Y * (1 + be) + q) + X * (be * Y + q)).
  - apply Rplus_le_compat; [apply Rmult_le_compat; try apply Rabs_pos; assumption|apply Rmult_le_compat_l; assumption].
  - right. ring.
Qed.
Lemma quot_rel x X y Y al be : 0 <= X -> 0 < Y -> 0 <= al -> 0 <= be <= / 2 ->
  Rabs (x - X) <= al * X -> Rabs (y - Y) <= be * Y -> 0 < y /\ Rabs (x / y - X / Y) <= ((al + be) / (1 - be)) * (X / Y).
Proof.
  intros HX HY Ha Hb H1 H2. assert (L : (1 - be) * Y <= y) by (apply Rabs_le_inv in H2; lra). assert (P : 0 < y) by nra. split; [exact P|].
  replace (x / y - X / Y) with (((x - X) * Y - X * (y - Y)) / (y * Y)) by (field; lra).
  unfold Rdiv at 1. rewrite Rabs_mult, (Rabs_pos_eq (/ (y * Y))) by (apply Rlt_le, Rinv_0_lt_compat; nra).
  assert (N : Rabs ((x - X) * Y - X * (y - Y)) <= (al + be) * (X * Y)).
  { eapply Rle_trans; [apply Rabs_triang|]. rewrite Rabs_Ropp, !Rabs_mult, (Rabs_pos_eq X), (Rabs_pos_eq Y) by lra. nra. }
  eapply Rle_trans; [apply Rmult_le_compat_r; [apply Rlt_le, Rinv_0_lt_compat; nra|exact N]|].
  replace ((al + be) / (1 - be) * (X / Y)) with ((al + be) * (X * Y) * / ((1 - be) * Y * Y)) by (field; lra).
  assert (XY : 0 <= X * Y) by (apply Rmult_le_pos; lra).
  apply Rmult_le_compat_l; [apply Rmult_le_pos; lra|]. apply Rinv_le_contravar; [|apply Rmult_le_compat_r; lra].
  apply Rmult_lt_0_compat; [|exact HY]. apply Rmult_lt_0_compat; lra.
Qed.

Section Conserve.
  Context (lm : LibmB) (SL : sane_libm lm).
  Notation NB := (ProofsRounding.NB lm).
  #[local] Instance NBi : Num f64 := ProofsRounding.NB lm.

  (** the mass factor is the exact one up to 8 units *)
  Lemma factor_near Ma Mb : plain_mass Ma -> plain_mass Mb ->
    Rabs (B2R (factor lm Ma Mb) - 4 * (B2R Ma * B2R Mb) / ((B2R Ma + B2R Mb) * (B2R Ma + B2R Mb))) <=
      8 * u64 * (4 * (B2R Ma * B2R Mb) / ((B2R Ma + B2R Mb) * (B2R Ma + B2R Mb))).
  Proof.
    intros (Fa & La & Ua) (Fb & Lb & Ub). destruct (four lm) as [F4 E4].
    unfold factor. change (@nmul f64 NB) with (Bmult (prec:=prec) (emax:=emax) mode_NE).
    change (@nadd f64 NB) with (Bplus (prec:=prec) (emax:=emax) mode_NE).
    change (@ndiv f64 NB) with (Bdiv (prec:=prec) (emax:=emax) mode_NE).
    change (@npowi f64 NB) with (lb_powi lm). rewrite (sane_square _ SL).
    generalize dependent (@nZ f64 NB 4). intros c4 F4 E4.
    set (a := B2R Ma) in *. set (b := B2R Mb) in *.
    pose proof bp400 as B0. pose proof u64_small as Hu.
    assert (Hab : bpow radix2 (-800) <= a * b <= bpow radix2 800).
    { replace (-800)%Z with (-400 + -400)%Z by lia. replace 800%Z with (400 + 400)%Z by lia. rewrite !bpow_plus. split; apply Rmult_le_compat; lra. }
    assert (Ha0 : 0 < a) by lra. assert (Hb0 : 0 < b) by lra. assert (Hab0 : 0 < a * b) by (apply Rmult_lt_0_compat; lra).
    destruct (mul_ok Ma Mb Fa Fb) as [FP EP]. { apply no_overflow_bpow with 800%Z; [lia|]. fold a b. rewrite Rabs_pos_eq by lra. lra. }
    fold a b in EP. set (P := Bmult mode_NE Ma Mb) in *.
    assert (N800 : bpow radix2 (-1022) <= bpow radix2 (-800)) by (apply bpow_le; lia).
    pose proof (rd_bounds (a * b) ltac:(lra)) as BP. rewrite <- EP in BP.
    assert (UP : B2R P <= bpow radix2 800) by (rewrite EP, <- (rd_bpow 800) by lia; apply rd_mono; lra).
    assert (LP : bpow radix2 (-800) <= B2R P) by (rewrite EP, <- (rd_bpow (-800)) by lia; apply rd_mono; lra).
    assert (P0 : 0 < B2R P) by (pose proof (bpow_gt_0 radix2 (-800)); lra).
    destruct (mul_ok c4 P F4 FP) as [FQ EQ].
    { apply no_overflow_bpow with 802%Z; [lia|]. rewrite E4. replace 802%Z with (2 + 800)%Z by lia. rewrite bpow_plus.
      change (bpow radix2 2) with 4. rewrite Rabs_pos_eq by lra. lra. }
    set (Q := Bmult mode_NE c4 P) in *.
    assert (EQ' : B2R Q = B2R P * 4).
    { rewrite EQ, E4. replace (4 * B2R P) with (B2R P * bpow radix2 2) by (change (bpow radix2 2) with 4; ring).
      rewrite rd_scale; [rewrite rd_id; reflexivity| |lia]. rewrite Rabs_pos_eq by lra. lra. }
    clear EQ.
    assert (Hs : bpow radix2 (-400) <= a + b <= bpow radix2 401).
    { split; [lra|]. replace 401%Z with (1 + 400)%Z by lia. rewrite bpow_plus. change (bpow radix2 1) with 2. lra. }
    destruct (add_ok Ma Mb Fa Fb) as [FS ES]. { apply no_overflow_bpow with 401%Z; [lia|]. fold a b. rewrite Rabs_pos_eq by lra. lra. }
    fold a b in ES. set (S := Bplus mode_NE Ma Mb) in *.
    assert (N400 : bpow radix2 (-1022) <= bpow radix2 (-400)) by (apply bpow_le; lia).
    pose proof (rd_bounds (a + b) ltac:(lra)) as BS. rewrite <- ES in BS.
    assert (US : B2R S <= bpow radix2 401) by (rewrite ES, <- (rd_bpow 401) by lia; apply rd_mono; lra).
    assert (LS : bpow radix2 (-400) <= B2R S) by (rewrite ES, <- (rd_bpow (-400)) by lia; apply rd_mono; lra).
    assert (HSS : bpow radix2 (-800) <= B2R S * B2R S <= bpow radix2 802).
    { replace (-800)%Z with (-400 + -400)%Z by lia. replace 802%Z with (401 + 401)%Z by lia. rewrite !bpow_plus. split; apply Rmult_le_compat; lra. }
    destruct (mul_ok S S FS FS) as [FT ET].
    { apply no_overflow_bpow with 802%Z; [lia|]. rewrite Rabs_pos_eq by (pose proof (bpow_gt_0 radix2 (-800)); lra). lra. }
    set (T := Bmult mode_NE S S) in *.
    pose proof (rd_bounds (B2R S * B2R S) ltac:(lra)) as BT. rewrite <- ET in BT.
    set (Y := (a + b) * (a + b)). assert (Y0 : 0 < Y) by (unfold Y; nra).
    assert (RS : Rabs (B2R S - (a + b)) <= u64 * (a + b) + 0) by (apply Rabs_le; lra).
    assert (A0 : 0 <= a + b) by lra. assert (U0 : 0 <= u64) by lra.
    pose proof (prod_rel _ _ _ _ _ _ _ _ A0 A0 U0 U0 (Rle_refl 0) (Rle_refl 0) RS RS) as RSS. fold Y in RSS.
    assert (RT : Rabs (B2R T - Y) <= 4 * u64 * Y).
    { apply Rabs_le_inv in RSS. apply Rabs_le. rewrite u64_val in *. lra. }
    assert (RQ : Rabs (B2R Q - 4 * (a * b)) <= u64 * (4 * (a * b))) by (rewrite EQ'; apply Rabs_le; lra).
    destruct (quot_rel (B2R Q) (4 * (a * b)) (B2R T) Y u64 (4 * u64)) as (T0 & RR); [lra|exact Y0|exact U0|rewrite u64_val; lra|exact RQ|exact RT|].
    set (X := 4 * (a * b) / Y) in *.
    assert (X0 : 0 < X) by (apply Rdiv_lt_0_compat; lra).
    assert (X1 : X <= 1) by (unfold X; apply Rmult_le_reg_r with Y; [exact Y0|]; unfold Rdiv; rewrite Rmult_assoc, Rinv_l by lra; pose proof (sq0 (a - b)); unfold Y; lra).
    assert (RR' : Rabs (B2R Q / B2R T - X) <= 51 / 10 * u64 * X).
    { eapply Rle_trans; [exact RR|]. apply Rmult_le_compat_r; [lra|]. rewrite u64_val. lra. }
    assert (XL : bpow radix2 (-900) <= X).
    { assert (forall m M, bpow radix2 (-400) <= m -> M <= bpow radix2 400 -> 0 < M -> m <= M -> bpow radix2 (-900) <= 4 * (m * M) / ((m + M) * (m + M))) as K.
      { intros m M H1 H2 H3 H4. assert (Z : 0 < (m + M) * (m + M)) by nra. apply Rmult_le_reg_r with ((m + M) * (m + M)); [exact Z|].
        unfold Rdiv. rewrite Rmult_assoc, Rinv_l by lra. rewrite Rmult_1_r.
        apply Rle_trans with (bpow radix2 (-900) * (4 * (M * M))); [apply Rmult_le_compat_l; [apply bpow_ge_0|nra]|].
        assert (bpow radix2 (-900) * M <= m); [|nra].
        eapply Rle_trans; [apply Rmult_le_compat_l; [apply bpow_ge_0|exact H2]|]. rewrite <- bpow_plus. eapply Rle_trans; [apply bpow_le|exact H1]. lia. }
      unfold X, Y. destruct (Rle_or_lt a b) as [L|L].
      - apply K; lra.
      - replace (a * b) with (b * a) by ring. replace (a + b) with (b + a) by ring. apply K; lra. }
    assert (Q2 : Rabs (B2R Q / B2R T) <= 2).
    { apply Rabs_le_inv in RR'. apply Rabs_le. rewrite u64_val in *. lra. }
    destruct (div_small Q T 1 FQ) as (FR & ER & _); [lra|lia|change (bpow radix2 1) with 2; exact Q2|].
    rewrite ER. pose proof (rd_near (B2R Q / B2R T)) as ND.
    assert (EE : eta <= u64 * X / 10).
    { eapply Rle_trans with (bpow radix2 (-64) * bpow radix2 (-900)).
      - rewrite <- bpow_plus. apply bpow_le. lia.
      - replace (u64 * X / 10) with (u64 / 10 * X) by field. apply Rmult_le_compat; try apply bpow_ge_0; [|exact XL]. rewrite u64_val. cbn. lra. }
    assert (QP : Rabs (B2R Q / B2R T) <= 2 * X).
    { apply Rabs_le_inv in RR'. apply Rabs_le. rewrite u64_val in *. lra. }
    apply Rabs_le_inv in RR', ND. apply Rabs_le. rewrite u64_val in *. lra.
  Qed.

  (** the energy transfer is the exact one up to 16 units *)
  Lemma transfer_near (Ma Mb e s : f64) : plain_mass Ma -> plain_mass Mb -> same_or_apart Ma Mb -> fin e -> 0 <= B2R e ->
    fin s -> Rabs (B2R s) <= 1 ->
    let t := Bmult mode_NE (Bmult mode_NE (factor lm Ma Mb) e) (Bmult mode_NE s s) in
    fin t /\ 0 <= B2R t <= B2R e /\
    Rabs (B2R t - exact_transfer (B2R Ma) (B2R Mb) (B2R e) (B2R s)) <=
      16 * u64 * exact_transfer (B2R Ma) (B2R Mb) (B2R e) (B2R s) + 4 * eta * (B2R e + 1).
  Proof.
    intros Ha Hb HM Fe He Fs Hs t. pose proof (factor_near Ma Mb Ha Hb) as FN. pose proof (factor_ok lm SL Ma Mb Ha Hb HM) as (Ff & Lf & Uf).
    set (f := factor lm Ma Mb) in *. unfold exact_transfer. destruct Ha as (_ & La & _). destruct Hb as (_ & Lb & _).
    set (a := B2R Ma) in *. set (b := B2R Mb) in *. pose proof bp400 as B0. pose proof u64_small as Hu. pose proof eta_pos as He0.
    set (X := 4 * (a * b) / ((a + b) * (a + b))) in *.
    assert (X0 : 0 <= X <= 1).
    { assert (Y0 : 0 < (a + b) * (a + b)) by nra. assert (0 < a * b) by nra. split; [apply Rlt_le, Rdiv_lt_0_compat; lra|]. unfold X. apply Rmult_le_reg_r with ((a + b) * (a + b)); [exact Y0|].
      unfold Rdiv. rewrite Rmult_assoc, Rinv_l by lra. pose proof (sq0 (a - b)). lra. }
    set (E := B2R e) in *. set (fv := B2R f) in *.
    (* factor times energy *)
    assert (fE : 0 <= fv * E <= E) by nra.
    destruct (mul_ok f e Ff Fe) as (Fg & Vg). { apply (no_overflow _ e). fold fv E. rewrite Rabs_pos_eq; lra. }
    fold fv E in Vg. set (g := Bmult mode_NE f e) in *.
    assert (G1 : 0 <= B2R g <= E) by (rewrite Vg; split; [apply rd_nonneg; lra|apply (rd_le_id _ e); fold E; lra]).
    destruct (near_pos (fv * E) (proj1 fE)) as (Ng & _). rewrite <- Vg in Ng.
    assert (NgX : Rabs (B2R g - X * E) <= 91 / 10 * u64 * (X * E) + eta).
    { assert (D : Rabs (fv * E - X * E) <= 8 * u64 * (X * E)).
      { replace (fv * E - X * E) with ((fv - X) * E) by ring. rewrite Rabs_mult, (Rabs_pos_eq E) by exact He. rewrite <- Rmult_assoc. apply Rmult_le_compat_r; assumption. }
      assert (XE : 0 <= X * E) by nra. set (XE' := X * E) in *. set (fe := fv * E) in *. apply Rabs_le_inv in D, Ng. apply Rabs_le. rewrite u64_val in *. lra. }
    (* the square of the sine *)
    set (sv := B2R s) in *. assert (S1 : 0 <= sv * sv <= 1).
    { split; [apply sq0|]. rewrite <- abs_sq. pose proof (Rabs_pos sv). nra. }
    destruct (mul_small s s 0 Fs Fs ltac:(lia)) as (Fq & Vq & Bq). { fold sv. change (bpow radix2 0) with 1. rewrite Rabs_pos_eq; lra. }
    fold sv in Vq, Bq. destruct (near_pos (sv * sv) (proj1 S1)) as (Nq & Pq). rewrite <- Vq in *. change (bpow radix2 0) with 1 in Bq.
    set (q := Bmult mode_NE s s) in *. rewrite Rabs_pos_eq in Bq by exact Pq.
    (* the product *)
    assert (P1 : 0 <= B2R g * B2R q <= E) by nra.
    destruct (mul_ok g q Fg Fq) as (Ft & Vt). { apply (no_overflow _ e). fold E. rewrite Rabs_pos_eq; lra. }
    fold t in Ft, Vt. split; [exact Ft|].
    split. { rewrite Vt. split; [apply rd_nonneg; lra|apply (rd_le_id _ e); fold E; lra]. }
    destruct (near_pos _ (proj1 P1)) as (Nt & _). rewrite <- Vt in Nt.
    assert (XE : 0 <= X * E <= E) by nra. set (XE' := X * E) in *.
    assert (U0 : 0 <= u64) by lra. assert (U9 : 0 <= 91 / 10 * u64) by lra. assert (E0 : 0 <= eta) by lra.
    pose proof (prod_rel _ _ _ _ _ _ _ _ (proj1 XE) (proj1 S1) U9 U0 E0 E0 NgX Nq) as D.
    set (W := XE' * (sv * sv)) in *. assert (W0 : 0 <= W) by (unfold W; apply Rmult_le_pos; lra).
    assert (E1 : eta <= / 1000). { apply Rle_trans with (bpow radix2 (-64)); [apply bpow_le; lia|]. cbn. lra. }
    assert (D' : Rabs (B2R g * B2R q - W) <= 102 / 10 * u64 * W + eta * (2 * E + 2)).
    { eapply Rle_trans; [exact D|].
      assert (eta * (sv * sv * (1 + u64)) <= eta * (11 / 10)) by (apply Rmult_le_compat_l; [lra|nra]).
      assert (eta * (XE' * (1 + 91 / 10 * u64)) <= eta * (2 * E)) by (apply Rmult_le_compat_l; [lra|nra]).
      assert (eta * eta <= eta * / 1000) by (apply Rmult_le_compat_l; lra).
      assert ((91 / 10 * u64 + u64 + 91 / 10 * u64 * u64) * W <= 102 / 10 * u64 * W) by (apply Rmult_le_compat_r; [exact W0|rewrite u64_val; lra]).
      lra. }
    assert (EP : 0 <= eta * E) by nra. set (p := B2R g * B2R q) in *.
    replace (eta * (2 * E + 2)) with (2 * (eta * E) + 2 * eta) in D' by ring. replace (4 * eta * (E + 1)) with (4 * (eta * E) + 4 * eta) by ring.
    apply Rabs_le_inv in D', Nt. apply Rabs_le. rewrite u64_val in *. lra.
  Qed.

  Lemma bcc_inv (build : Build f64) (p1 p2 : Particle f64) (bcg : BinaryCollisionGeometry f64) (options : Options f64) (r : BinaryCollisionResult f64) : calculate_binary_collision build p1 p2 bcg options = Ok (Some r) ->
    is_nan (bcr_theta r) = false /\
    bcr_recoil_energy r = Bmult mode_NE (Bmult mode_NE (factor lm (p_m p1) (p_m p2)) (p_E p1)) (Bmult mode_NE (lb_sin lm (bcr_theta r /! nZ 2)) (lb_sin lm (bcr_theta r /! nZ 2))).
  Proof.
    intros H. unfold calculate_binary_collision in H.
    apply bind_ok in H. destruct H as (ip & _ & H). apply bind_ok in H. destruct H as (si & _ & H).
    apply bind_ok in H. destruct H as (x0 & _ & H). apply bind_ok in H. destruct H as (theta & _ & H).
    destruct (nis_nan theta) eqn:N; [discriminate H|].
    assert (I : forall x y : BinaryCollisionResult f64, Ok (Some x) = Ok (Some y) -> x = y) by congruence. apply I in H. subst r.
    unfold collision_kinematics. cbn [bcr_recoil_energy bcr_theta]. split; [exact N|].
    transitivity (Bmult mode_NE (Bmult mode_NE (factor lm (p_m p1) (p_m p2)) (p_E p1)) (lb_powi lm (lb_sin lm (theta /! nZ 2)) 2)); [reflexivity|].
    rewrite (sane_square _ SL). reflexivity.
  Qed.
  (** taking a part from an energy *)
  Lemma minus_near (e t : f64) : fin e -> fin t -> 0 <= B2R t <= B2R e -> let d := Bplus mode_NE e (Bopp t) in
    fin d /\ 0 <= B2R d <= B2R e /\ Rabs (B2R d - (B2R e - B2R t)) <= u64 * B2R e + eta.
  Proof.
    intros Fe Ft H d. destruct (opp_ok t) as (Fo & Vo). rewrite Ft in Fo.
    destruct (add_ok e (Bopp t) Fe Fo) as (Fd & Vd). { apply (no_overflow _ e). rewrite Vo, Rabs_pos_eq; lra. }
    fold d in Fd, Vd. rewrite Vo in Vd. split; [exact Fd|]. replace (B2R e + - B2R t) with (B2R e - B2R t) in Vd by ring.
    split. { rewrite Vd. split; [apply rd_nonneg; lra|apply (rd_le_id _ e); lra]. }
    destruct (near_pos (B2R e - B2R t) ltac:(lra)) as (N & _). rewrite <- Vd in N. eapply Rle_trans; [exact N|]. pose proof u64_small. nra.
  Qed.

  (** ** one collision *)
  Lemma nan_minus (e t : f64) : is_nan (Bplus mode_NE e (Bopp t)) = false -> is_nan e = false /\ is_nan t = false.
  Proof. intros H. split; [destruct e; try reflexivity; discriminate H|]. destruct t; try reflexivity. destruct e; discriminate H. Qed.
  Lemma step_near (build : Build f64) (mat : Material f64) (options : Options f64) k (bcg : BinaryCollisionGeometry f64) (cs : @CollisionState f64) (rng : Rng f64) n (cs' : @CollisionState f64) n' : known (mat_m mat) (p_m (cs_particle_1 cs)) ->
    fin (p_E (cs_particle_1 cs)) -> 0 <= B2R (p_E (cs_particle_1 cs)) -> is_nan (p_E (cs_particle_1 cs')) = false ->
    collision_step build mat options k bcg cs rng n = Ok (cs', n') ->
    cs' = cs \/ exists (M theta T : f64), let e := B2R (p_E (cs_particle_1 cs)) in let e' := B2R (p_E (cs_particle_1 cs')) in
      let exact := exact_transfer (B2R (p_m (cs_particle_1 cs))) (B2R M) e (B2R (lb_sin lm (theta /! nZ 2))) in
      In M (mat_m mat) /\ fin T /\ 0 <= B2R T <= e /\ Rabs (B2R T - exact) <= 16 * u64 * exact + 4 * eta * (e + 1) /\
      fin (p_E (cs_particle_1 cs')) /\ 0 <= e' <= e /\ Rabs (e' - (e - B2R T)) <= u64 * e + eta /\
      cs_total_energy_lost_to_recoils cs' = Bplus mode_NE (cs_total_energy_lost_to_recoils cs) T /\
      (cs_particles cs' = cs_particles cs \/ exists recoil bulk, cs_particles cs' = recoil :: cs_particles cs /\
         average_bulk_binding_energy mat (vx (p_pos recoil)) (vy (p_pos recoil)) (vz (p_pos recoil)) = Ok bulk /\ p_m recoil = M /\ p_E recoil = Bminus mode_NE T bulk).
  Proof.
    intros (Pm & Pl & Al) Fe He Nn H. apply collision_step_inv in H. destruct H as (i & p2 & barrier & Hc & Hb & [[_ ->]|[_ H]]); [left; reflexivity|right].
    destruct H as (r & bulk & keep & Hr & Hbulk & _ & ->). apply partner_inv in Hc. destruct Hc as (_ & _ & _ & _ & _ & _ & Ha & _). destruct Ha as (_ & Am & _).
    apply nth_error_In in Am. cbn [cs_particle_1 cs_particles cs_total_energy_lost_to_recoils] in *.
    match type of Nn with is_nan ?t = false => assert (EE : t = Bplus mode_NE (p_E (cs_particle_1 cs)) (Bopp (bcr_recoil_energy r))) by (unfold projectile_after; destruct (_ && _); reflexivity) end.
    cbv zeta. rewrite EE in Nn |- *. clear EE.
    destruct (nan_minus _ _ Nn) as (_ & NT). destruct (bcc_inv _ _ _ _ _ _ Hr) as (_ & ER).
    pose proof (proj1 (Forall_forall _ _) Pl _ Am) as PM. pose proof (proj1 (Forall_forall _ _) Al _ Am) as PA.
    set (p1 := cs_particle_1 cs) in *. set (s := lb_sin lm (bcr_theta r /! nZ 2)) in *.
    assert (SS : is_nan s = true \/ (fin s /\ Rabs (B2R s) <= 1)) by apply (sane_sin _ SL). destruct SS as [Ns|(Fs & Bs)].
    { exfalso. change (lb_sin lm (bcr_theta r /! nZ 2)) with s in ER. rewrite ER in NT. clearbody s. destruct s; try discriminate Ns. destruct (Bmult mode_NE (factor lm (p_m p1) (p_m p2)) (p_E p1)); discriminate NT. }
    pose proof (transfer_near (p_m p1) (p_m p2) (p_E p1) s Pm PM PA Fe He Fs Bs) as TN. cbv zeta in TN. rewrite <- ER in TN. destruct TN as (FT & BT & NTr).
    destruct (minus_near (p_E p1) (bcr_recoil_energy r) Fe FT BT) as (FD & BD & ND).
    exists (p_m p2), (bcr_theta r), (bcr_recoil_energy r). repeat (split; [assumption || exact (proj1 BT) || exact (proj2 BT) || reflexivity|]).
    destruct keep; [right|left; reflexivity].
    exists (recoil_after bcg r bulk p2), bulk. split; [reflexivity|]. split; [exact Hbulk|]. split; reflexivity.
  Qed.

  (** ** the collisions of a flight *)
  Lemma step_nan (build : Build f64) (mat : Material f64) (options : Options f64) k (bcg : BinaryCollisionGeometry f64) (cs : @CollisionState f64) (rng : Rng f64) n (cs' : @CollisionState f64) n' : is_nan (p_E (cs_particle_1 cs)) = true ->
    collision_step build mat options k bcg cs rng n = Ok (cs', n') -> is_nan (p_E (cs_particle_1 cs')) = true.
  Proof.
    intros N H. apply collision_step_inv in H. destruct H as (i & p2 & barrier & _ & _ & [[_ ->]|[_ H]]); [exact N|].
    destruct H as (r & bulk & keep & _ & _ & _ & ->). cbn [cs_particle_1].
    match goal with |- is_nan ?t = true => assert (EE : t = Bplus mode_NE (p_E (cs_particle_1 cs)) (Bopp (bcr_recoil_energy r))) by (unfold projectile_after; destruct (_ && _); reflexivity) end. rewrite EE.
    change (is_nan (Bplus mode_NE (p_E (cs_particle_1 cs)) (Bopp (bcr_recoil_energy r))) = true). now destruct (p_E (cs_particle_1 cs)).
  Qed.
  Lemma loop_nan (build : Build f64) (mat : Material f64) (options : Options f64) (bcgs : list (BinaryCollisionGeometry f64)) : forall k (cs : @CollisionState f64) (rng : Rng f64) n (cs' : @CollisionState f64) n', is_nan (p_E (cs_particle_1 cs)) = true ->
    collision_loop build mat options k bcgs cs rng n = Ok (cs', n') -> is_nan (p_E (cs_particle_1 cs')) = true.
  Proof.
    induction bcgs as [|bcg bcgs IH]; cbn [collision_loop]; intros k cs rng n cs' n' N H.
    - inv_ok. exact N.
    - apply mbind_ok in H. destruct H as (cs1 & n1 & H1 & H). eapply IH; [|exact H]. eapply step_nan; eassumption.
  Qed.
  Lemma step_mass (build : Build f64) (mat : Material f64) (options : Options f64) k (bcg : BinaryCollisionGeometry f64) (cs : @CollisionState f64) (rng : Rng f64) n (cs' : @CollisionState f64) n' : collision_step build mat options k bcg cs rng n = Ok (cs', n') -> p_m (cs_particle_1 cs') = p_m (cs_particle_1 cs).
  Proof.
    intros H. apply collision_step_inv in H. destruct H as (i & p2 & barrier & _ & _ & [[_ ->]|[_ H]]); [reflexivity|].
    destruct H as (r & bulk & keep & _ & _ & _ & ->). cbn [cs_particle_1]. unfold projectile_after. destruct (_ && _); reflexivity.
  Qed.
  Definition loss (cs : @CollisionState f64) : f64 := cs_total_energy_lost_to_recoils cs.
  (** one collision and the sums *)
  Lemma step_held (build : Build f64) (mat : Material f64) (options : Options f64) k (bcg : BinaryCollisionGeometry f64) (cs : @CollisionState f64) (rng : Rng f64) n (cs' : @CollisionState f64) n' : known (mat_m mat) (p_m (cs_particle_1 cs)) ->
    fin (p_E (cs_particle_1 cs)) -> 0 <= B2R (p_E (cs_particle_1 cs)) -> is_nan (p_E (cs_particle_1 cs')) = false ->
    fin (loss cs) -> 0 <= B2R (loss cs) -> held cs <= bpow radix2 1010 ->
    collision_step build mat options k bcg cs rng n = Ok (cs', n') ->
    fin (p_E (cs_particle_1 cs')) /\ 0 <= B2R (p_E (cs_particle_1 cs')) <= B2R (p_E (cs_particle_1 cs)) /\ fin (loss cs') /\ 0 <= B2R (loss cs') /\
    Rabs (held cs' - held cs) <= 2 * u64 * held cs + 2 * eta.
  Proof.
    intros K Fe He Nn Fl Hl HB H. pose proof u64_small as Hu. pose proof eta_pos as He0. unfold held in *. fold (loss cs) in *. fold (loss cs').
    destruct (step_near _ _ _ _ _ _ _ _ _ _ K Fe He Nn H) as [->|(M & theta & T & _ & FT & BT & _ & Fe' & Be' & Ne & EL & _)].
    - split; [exact Fe|]. split; [split; [exact He|apply Rle_refl]|]. split; [exact Fl|]. split; [exact Hl|]. rewrite Rminus_diag_eq, Rabs_R0 by reflexivity.
      assert (0 <= 2 * u64 * (B2R (p_E (cs_particle_1 cs)) + B2R (loss cs))) by (apply Rmult_le_pos; lra). apply Rplus_le_le_0_compat; [assumption|lra].
    - cbv zeta in *. fold (loss cs) (loss cs') in EL.
      destruct (add_small (loss cs) T 1010 Fl FT ltac:(lia)) as (FL & VL & _). { rewrite Rabs_pos_eq; lra. }
      rewrite <- EL in FL, VL. destruct (near_pos (B2R (loss cs) + B2R T) ltac:(lra)) as (NL & PL). rewrite <- VL in NL, PL.
      split; [exact Fe'|]. split; [lra|]. split; [exact FL|]. split; [exact PL|].
      set (e := B2R (p_E (cs_particle_1 cs))) in *. set (e' := B2R (p_E (cs_particle_1 cs'))) in *. set (l := B2R (loss cs)) in *. set (l' := B2R (loss cs')) in *. set (t := B2R T) in *.
      assert (A : u64 * (l + t) <= u64 * (l + e)) by (apply Rmult_le_compat_l; lra).
      assert (B : 0 <= u64 * l) by nra. apply Rabs_le_inv in Ne, NL. apply Rabs_le. lra.
  Qed.
  Lemma loop_held (build : Build f64) (mat : Material f64) (options : Options f64) H0 (bcgs : list (BinaryCollisionGeometry f64)) : forall k (cs : @CollisionState f64) (rng : Rng f64) n (cs' : @CollisionState f64) n', known (mat_m mat) (p_m (cs_particle_1 cs)) ->
    fin (p_E (cs_particle_1 cs)) -> 0 <= B2R (p_E (cs_particle_1 cs)) -> is_nan (p_E (cs_particle_1 cs')) = false ->
    fin (loss cs) -> 0 <= B2R (loss cs) -> 0 <= H0 <= bpow radix2 1000 -> (Z.of_nat (k + length bcgs) <= 2 ^ 20)%Z ->
    Rabs (held cs - H0) <= INR k * (4 * u64 * H0 + 4 * eta) ->
    collision_loop build mat options k bcgs cs rng n = Ok (cs', n') ->
    fin (p_E (cs_particle_1 cs')) /\ 0 <= B2R (p_E (cs_particle_1 cs')) <= B2R (p_E (cs_particle_1 cs)) /\ fin (loss cs') /\ 0 <= B2R (loss cs') /\
    Rabs (held cs' - H0) <= INR (k + length bcgs) * (4 * u64 * H0 + 4 * eta).
  Proof.
    pose proof u64_small as Hu. pose proof eta_pos as He0.
    induction bcgs as [|bcg bcgs IH]; cbn [collision_loop length]; intros k cs rng n cs' n' K Fe He Nn Fl Hl HH HK HC H.
    - inv_ok. rewrite Nat.add_0_r. split; [exact Fe|]. split; [split; [exact He|apply Rle_refl]|]. split; [exact Fl|]. split; [exact Hl|]. exact HC.
    - apply mbind_ok in H. destruct H as (cs1 & n1 & H1 & H).
      assert (N1 : is_nan (p_E (cs_particle_1 cs1)) = false).
      { destruct (is_nan (p_E (cs_particle_1 cs1))) eqn:E; [|reflexivity]. rewrite (loop_nan _ _ _ _ _ _ _ _ _ _ E H) in Nn. discriminate Nn. }
      assert (KB : 0 <= INR k <= 1048576).
      { split; [apply pos_INR|]. rewrite INR_IZR_INZ. apply IZR_le. change (2 ^ 20)%Z with 1048576%Z in HK. lia. }
      assert (EB : eta <= / 1000). { apply Rle_trans with (bpow radix2 (-64)); [apply bpow_le; lia|]. cbn. lra. }
      assert (CB : INR k * (4 * u64 * H0 + 4 * eta) <= H0 / 1000000 + 4194304 * eta).
      { apply Rle_trans with (1048576 * (4 * u64 * H0 + 4 * eta)); [apply Rmult_le_compat_r; [nra|lra]|]. rewrite u64_val. lra. }
      assert (HB : held cs <= bpow radix2 1010).
      { replace 1010%Z with (10 + 1000)%Z by lia. rewrite bpow_plus. change (bpow radix2 10) with 1024.
        assert (1 <= bpow radix2 1000) by (change 1 with (bpow radix2 0); apply bpow_le; lia).
        assert (4194304 * eta <= 1). { apply Rle_trans with (4194304 * bpow radix2 (-64)); [apply Rmult_le_compat_l; [lra|apply bpow_le; lia]|]. cbn. lra. }
        apply Rabs_le_inv in HC. lra. }
      destruct (step_held _ _ _ _ _ _ _ _ _ _ K Fe He N1 Fl Hl HB H1) as (F1 & B1 & L1 & P1 & D1).
      replace (k + S (length bcgs))%nat with (S k + length bcgs)%nat in * by lia.
      assert (D : Rabs (held cs1 - H0) <= INR (S k) * (4 * u64 * H0 + 4 * eta)).
      { eapply Rle_trans; [exact (chain_err _ _ _ _ _ D1 HC)|]. rewrite S_INR.
        assert (2 * u64 * held cs + 2 * eta <= 4 * u64 * H0 + 4 * eta); [|lra].
        assert (held cs <= 2 * H0 + 8388608 * eta) by (apply Rabs_le_inv in HC; lra).
        assert (u64 * held cs <= u64 * (2 * H0 + 8388608 * eta)) by (apply Rmult_le_compat_l; lra).
        assert (u64 * (8388608 * eta) <= eta) by (rewrite u64_val; lra). lra. }
      destruct (IH (S k) cs1 rng n1 cs' n') as (F2 & B2 & L2 & P2 & D2); try assumption; [rewrite (step_mass _ _ _ _ _ _ _ _ _ _ H1); exact K|lra|].
      split; [exact F2|]. split; [lra|]. split; [exact L2|]. split; [exact P2|]. exact D2.
  Qed.

  (** ** one flight *)
  Lemma no_crossing_keeps_energy (mat : Material f64) (p p' : Particle f64) : surface_binding_energy mat p = Ok p' ->
    in_barrier mat (p_pos p) = in_barrier mat (p_pos_old p) -> p_E p' = p_E p.
  Proof.
    unfold surface_binding_energy, in_barrier. intros H E. apply bind_ok in H. destruct H as (Es & _ & H).
    apply bind_ok in H. destruct H as (a & Ha & H). apply bind_ok in H. destruct H as (b & Hb & H).
    assert (K : Ok a = Ok b) by (rewrite <- Ha, <- Hb; exact E). injection K as <-. destruct a; cbn [negb andb] in H; injection H as <-; reflexivity.
  Qed.
  Lemma known_step (mat : Material f64) (options : Options f64) (qa : Particle f64) dist x0 scZ sci (q : Particle f64) ee : fin (p_E qa) -> 0 <= B2R (p_E qa) -> in_material mat (p_pos qa) = true ->
    subtract_electronic_stopping_energy mat options qa dist x0 scZ sci = Ok (q, ee) -> fin ee -> 0 <= B2R ee -> B2R ee <= bpow radix2 1000 -> B2R (p_E qa) <= bpow radix2 1001 ->
    fin (p_E q) /\ Rabs (B2R (p_E q) - Rmax 0 (B2R (p_E qa) - B2R ee)) <= u64 * B2R (p_E qa) + eta.
  Proof.
    intros Fq Hq Hin H Fe He Be Bq. unfold subtract_electronic_stopping_energy in H.
    apply bind_ok in H. destruct H as (u & _ & H). unfold in_material in Hin. unfold mat_inside in H. rewrite Hin in H.
    apply bind_ok in H. destruct H as (d & _ & H). apply bind_ok in H. destruct H as (u' & _ & H).
    assert (I : forall (x y : Particle f64) (a b : f64), Ok (x, a) = Ok (y, b) -> x = y /\ a = b) by (intros x y a b K; injection K; auto). apply I in H. destruct H as (<- & ->).
    destruct (opp_ok ee) as (Fo & Vo). rewrite Fe in Fo.
    change (p_E qa +! (-! ee)) with (Bplus mode_NE (p_E qa) (Bopp ee)).
    destruct (add_small (p_E qa) (Bopp ee) 1001 Fq Fo ltac:(lia)) as (FE & VE & _).
    { rewrite Vo. apply Rabs_le. assert (bpow radix2 1000 <= bpow radix2 1001) by (apply bpow_le; lia). lra. }
    rewrite Vo in VE. replace (B2R (p_E qa) + - B2R ee) with (B2R (p_E qa) - B2R ee) in VE by ring.
    set (E := Bplus mode_NE (p_E qa) (Bopp ee)) in *.
    assert (Z0 : (nZ 0 : f64) = b0) by apply (zero lm).
    assert (N : Rabs (rd (B2R (p_E qa) - B2R ee) - (B2R (p_E qa) - B2R ee)) <= u64 * Rabs (B2R (p_E qa) - B2R ee) + eta) by apply rd_near.
    rewrite <- VE in N. pose proof u64_small as Hu. pose proof eta_pos as He0.
    match goal with |- context [if ?c then _ else _] => replace c with (Bltb E b0) by (rewrite <- Z0; reflexivity) end.
    destruct (Bltb E b0) eqn:L; cbn [p_E set_p_E].
    - match goal with |- is_finite ?z = true /\ _ => replace z with (b0 : f64) by (symmetry; exact Z0) end. split; [reflexivity|]. assert (LT : B2R E < 0) by (apply (lt_fin E b0 FE ltac:(reflexivity)) in L; exact L).
      assert (B2R (p_E qa) - B2R ee <= 0).
      { destruct (Rle_or_lt (B2R (p_E qa) - B2R ee) 0) as [K|K]; [exact K|]. exfalso. pose proof (rd_nonneg (B2R (p_E qa) - B2R ee) ltac:(lra)) as P. rewrite <- VE in P. lra. }
      rewrite Rmax_left by lra. change (B2R b0) with 0. rewrite Rminus_diag_eq, Rabs_R0 by reflexivity. apply Rplus_le_le_0_compat; [apply Rmult_le_pos; lra|lra].
    - split; [exact FE|]. destruct (Rle_or_lt 0 (B2R (p_E qa) - B2R ee)) as [K|K].
      + rewrite Rmax_right by lra. rewrite (Rabs_pos_eq (B2R (p_E qa) - B2R ee)) in N by exact K. eapply Rle_trans; [exact N|].
        apply Rplus_le_compat_r, Rmult_le_compat_l; lra.
      + (* below zero, but rounded to zero *)
        rewrite Rmax_left by lra. assert (P : rd (B2R (p_E qa) - B2R ee) <= rd 0) by (apply rd_mono; lra). rewrite rd_0, <- VE in P.
        assert (Q : ~ B2R E < 0) by (intros Q; apply (lt_fin E b0 FE ltac:(reflexivity)) in Q; congruence).
        replace (B2R E) with 0 by lra. rewrite Rminus_diag_eq, Rabs_R0 by reflexivity. apply Rplus_le_le_0_compat; [apply Rmult_le_pos; lra|lra].
  Qed.
End Conserve.
