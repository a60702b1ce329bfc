(** * ProofsUnit64.v - rounding errors of normalising and turning directions *)
From Coq Require Import ZArith List Bool Reals Lra Lia Floats.SpecFloat.
From Flocq Require Import Core BinarySingleNaN Relative.
From Verif Require Import Num NumSF NumB ModelTypes ModelParticle ProofsFloat ProofsSampling64 SpecUnit64.
Open Scope R_scope.

Definition eta : R := bpow radix2 (-1075).
Lemma u64_val : u64 = / 9007199254740992.
Proof. unfold u64. cbn. reflexivity. Qed.
Lemma eta_pos : 0 < eta. Proof. apply bpow_gt_0. Qed.
Lemma rd_near x : Rabs (rd x - x) <= u64 * Rabs x + eta.
Proof.
  unfold rd. cbn [round_mode]. change fmt with (FLT_exp (-1074) 53).
  destruct (error_N_FLT radix2 (-1074) 53 ltac:(reflexivity) (fun z => negb (Z.even z)) x) as (ep & et & He & Ht & _ & ->).
  replace (x * (1 + ep) + et - x) with (ep * x + et) by ring.
  eapply Rle_trans; [apply Rabs_triang|]. rewrite Rabs_mult. apply Rplus_le_compat.
  - apply Rmult_le_compat_r; [apply Rabs_pos|]. eapply Rle_trans; [exact He|]. right. unfold u64.
    replace (-53)%Z with (-1 + (-(53) + 1))%Z by lia. rewrite bpow_plus. f_equal; cbn; lra.
  - eapply Rle_trans; [exact Ht|]. right. unfold eta. replace (-1075)%Z with (-1 + -1074)%Z by lia. rewrite bpow_plus. f_equal; cbn; lra.
Qed.
Lemma near_pos x : 0 <= x -> Rabs (rd x - x) <= u64 * x + eta /\ 0 <= rd x.
Proof. intros H. split; [|apply rd_nonneg; exact H]. rewrite <- (Rabs_pos_eq x) at 3 by exact H. apply rd_near. Qed.

(** the sum of squares *)
Lemma sum_near xx yy zz X Y Z s1 s : 0 <= xx -> 0 <= yy -> 0 <= zz -> eta <= u64 * (xx + yy + zz) / 1000 ->
  X = rd xx -> Y = rd yy -> Z = rd zz -> s1 = rd (X + Y) -> s = rd (s1 + Z) ->
  Rabs (s - (xx + yy + zz)) <= 4 * u64 * (xx + yy + zz).
Proof.
  intros Hx Hy Hz He EX EY EZ E1 E.
  destruct (near_pos xx Hx) as (AX & PX). rewrite <- EX in *. destruct (near_pos yy Hy) as (AY & PY). rewrite <- EY in *.
  destruct (near_pos zz Hz) as (AZ & PZ). rewrite <- EZ in *.
  destruct (near_pos (X + Y) ltac:(lra)) as (A1 & P1). rewrite <- E1 in *. destruct (near_pos (s1 + Z) ltac:(lra)) as (A & P). rewrite <- E in *.
  apply Rabs_le_inv in AX, AY, AZ, A1, A. apply Rabs_le. rewrite u64_val in *. lra.
Qed.
Lemma sqrt_near T s m : 0 < T -> bpow radix2 (-1000) <= T -> Rabs (s - T) <= 4 * u64 * T -> m = rd (sqrt s) ->
  (1 - 8 * u64) * T <= m * m <= (1 + 8 * u64) * T /\ 0 < m.
Proof.
  intros HT HB Hs E. assert (Hu : 0 < u64 <= / 1000000) by (rewrite u64_val; lra). apply Rabs_le_inv in Hs.
  assert (S : T / 2 <= s) by nra. set (r := sqrt s) in *. assert (R0 : 0 <= r) by apply sqrt_pos.
  assert (R2 : r * r = s) by (apply sqrt_sqrt; lra).
  assert (RB : bpow radix2 (-501) <= r).
  { destruct (Rle_or_lt (bpow radix2 (-501)) r) as [L|L]; [exact L|]. exfalso.
    assert (r * r < bpow radix2 (-501) * bpow radix2 (-501)) by (apply Rmult_le_0_lt_compat; assumption).
    rewrite <- bpow_plus in H. replace (-501 + -501)%Z with (-2 + -1000)%Z in H by lia. rewrite bpow_plus in H.
    replace (bpow radix2 (-2)) with (/ 4) in H by (cbn; lra). lra. }
  assert (HE : eta <= u64 * r / 1000).
  { eapply Rle_trans with (bpow radix2 (-64) * bpow radix2 (-501)).
    - rewrite <- bpow_plus. apply bpow_le. lia.
    - replace (u64 * r / 1000) with (u64 / 1000 * r) by field. apply Rmult_le_compat; try apply bpow_ge_0; [|exact RB]. rewrite u64_val. cbn. lra. }
  destruct (near_pos r R0) as (A & P). rewrite <- E in *. apply Rabs_le_inv in A.
  assert (M1 : (1 - 3 / 2 * u64) * r <= m) by nra. assert (M2 : m <= (1 + 3 / 2 * u64) * r) by nra.
  assert (RP : 0 < r) by (eapply Rlt_le_trans; [apply (bpow_gt_0 radix2 (-501))|exact RB]).
  assert (MP : 0 < m) by nra. split; [|exact MP].
  assert (L1 : (1 - 3 * u64) * s <= m * m).
  { rewrite <- R2. apply Rle_trans with (((1 - 3 / 2 * u64) * r) * ((1 - 3 / 2 * u64) * r)); [|apply Rmult_le_compat; nra].
    replace ((1 - 3 / 2 * u64) * r * ((1 - 3 / 2 * u64) * r)) with ((1 - 3 * u64) * (r * r) + (9 / 4 * (u64 * u64)) * (r * r)) by field. nra. }
  assert (L2 : m * m <= (1 + 7 / 2 * u64) * s).
  { rewrite <- R2. apply Rle_trans with (((1 + 3 / 2 * u64) * r) * ((1 + 3 / 2 * u64) * r)); [apply Rmult_le_compat; nra|].
    replace ((1 + 3 / 2 * u64) * r * ((1 + 3 / 2 * u64) * r)) with ((1 + 3 * u64 + 9 / 4 * (u64 * u64)) * (r * r)) by field.
    apply Rmult_le_compat_r; [nra|]. nra. }
  split.
  - eapply Rle_trans; [|exact L1]. apply Rle_trans with ((1 - 3 * u64) * ((1 - 4 * u64) * T)); [|apply Rmult_le_compat_l; nra].
    rewrite <- Rmult_assoc. apply Rmult_le_compat_r; [lra|]. nra.
  - eapply Rle_trans; [exact L2|]. apply Rle_trans with ((1 + 7 / 2 * u64) * ((1 + 4 * u64) * T)); [apply Rmult_le_compat_l; nra|].
    rewrite <- Rmult_assoc. apply Rmult_le_compat_r; [lra|]. nra.
Qed.
Lemma quotient_near q n : Rabs q <= 2 -> n = rd q -> Rabs (n - q) <= 3 * u64 /\ Rabs (n * n - q * q) <= 13 * u64.
Proof.
  intros Hq ->. pose proof (rd_near q) as A. assert (E : eta <= u64 / 1000).
  { apply Rle_trans with (bpow radix2 (-64)); [apply bpow_le; lia|]. rewrite u64_val. cbn. lra. }
  assert (D : Rabs (rd q - q) <= 3 * u64) by (pose proof (Rabs_pos q); assert (0 < u64) by (rewrite u64_val; lra); nra). split; [exact D|].
  replace (rd q * rd q - q * q) with ((rd q - q) * (rd q - q + 2 * q)) by ring. rewrite Rabs_mult.
  apply Rle_trans with (3 * u64 * (3 * u64 + 4)).
  - apply Rmult_le_compat; try apply Rabs_pos; [exact D|]. eapply Rle_trans; [apply Rabs_triang|]. rewrite (Rabs_mult 2 q), (Rabs_pos_eq 2) by lra. lra.
  - rewrite u64_val. lra.
Qed.
(** the whole of normalising, on reals *)
Lemma normal_near x y z m n1 n2 n3 : let T := x * x + y * y + z * z in
  0 < T -> (1 - 8 * u64) * T <= m * m <= (1 + 8 * u64) * T -> 0 < m ->
  n1 = rd (x / m) -> n2 = rd (y / m) -> n3 = rd (z / m) ->
  (Rabs (x / m) <= 2 /\ Rabs (y / m) <= 2 /\ Rabs (z / m) <= 2) /\ Rabs (n1 * n1 + n2 * n2 + n3 * n3 - 1) <= 64 * u64.
Proof.
  intros T HT HM MP E1 E2 E3. assert (Hu : 0 < u64 <= / 1000000) by (rewrite u64_val; lra).
  set (a := x / m) in *. set (b := y / m) in *. set (c := z / m) in *.
  assert (Q : (a * a + b * b + c * c) * (m * m) = T) by (unfold a, b, c, T; field; lra).
  set (S := a * a + b * b + c * c) in *. assert (S0 : 0 <= S) by (unfold S; nra).
  assert (S1 : S <= 1 + 9 * u64).
  { destruct (Rle_or_lt S (1 + 9 * u64)) as [L|L]; [exact L|]. exfalso.
    assert (S * ((1 - 8 * u64) * T) <= T) by (rewrite <- Q at 2; apply Rmult_le_compat_l; lra).
    assert ((1 + 9 * u64) * ((1 - 8 * u64) * T) < S * ((1 - 8 * u64) * T)) by (apply Rmult_lt_compat_r; [nra|exact L]).
    assert (1 < (1 + 9 * u64) * (1 - 8 * u64)) by nra. nra. }
  assert (S2 : 1 - 9 * u64 <= S).
  { destruct (Rle_or_lt (1 - 9 * u64) S) as [L|L]; [exact L|]. exfalso.
    assert (T <= S * ((1 + 8 * u64) * T)) by (rewrite <- Q at 1; apply Rmult_le_compat_l; lra).
    assert (S * ((1 + 8 * u64) * T) < (1 - 9 * u64) * ((1 + 8 * u64) * T)) by (apply Rmult_lt_compat_r; [nra|exact L]).
    assert ((1 - 9 * u64) * (1 + 8 * u64) < 1) by nra. nra. }
  assert (B : forall t, t * t <= S -> Rabs t <= 2).
  { intros t Ht. apply Rabs_le. nra. }
  assert (B1 : Rabs a <= 2) by (apply B; unfold S; nra). assert (B2 : Rabs b <= 2) by (apply B; unfold S; nra). assert (B3 : Rabs c <= 2) by (apply B; unfold S; nra).
  split; [auto|].
  destruct (quotient_near a n1 B1 E1) as (_ & D1). destruct (quotient_near b n2 B2 E2) as (_ & D2). destruct (quotient_near c n3 B3 E3) as (_ & D3).
  apply Rabs_le_inv in D1, D2, D3. apply Rabs_le. unfold S in *. lra.
Qed.

(** ** on doubles *)
Lemma square_bound (x : R) e : Rabs x <= bpow radix2 e -> Rabs (x * x) <= bpow radix2 (e + e).
Proof. intros H. rewrite Rabs_mult, bpow_plus. apply Rmult_le_compat; try apply Rabs_pos; assumption. Qed.
Lemma mul_small (x y : f64) e : fin x -> fin y -> (-1074 <= e < 1024)%Z -> Rabs (B2R x * B2R y) <= bpow radix2 e ->
  fin (Bmult mode_NE x y) /\ B2R (Bmult mode_NE x y) = rd (B2R x * B2R y) /\ Rabs (rd (B2R x * B2R y)) <= bpow radix2 e.
Proof.
  intros Hx Hy He H. destruct (mul_ok x y Hx Hy (no_overflow_bpow _ e He H)) as (A & B). split; [exact A|]. split; [exact B|].
  apply rd_abs_bpow; [lia|exact H].
Qed.
Lemma add_small (x y : f64) e : fin x -> fin y -> (-1074 <= e < 1024)%Z -> Rabs (B2R x + B2R y) <= bpow radix2 e ->
  fin (Bplus mode_NE x y) /\ B2R (Bplus mode_NE x y) = rd (B2R x + B2R y) /\ Rabs (rd (B2R x + B2R y)) <= bpow radix2 e.
Proof.
  intros Hx Hy He H. destruct (add_ok x y Hx Hy (no_overflow_bpow _ e He H)) as (A & B). split; [exact A|]. split; [exact B|].
  apply rd_abs_bpow; [lia|exact H].
Qed.
Lemma sub_small (x y : f64) e : fin x -> fin y -> (-1074 <= e < 1024)%Z -> Rabs (B2R x - B2R y) <= bpow radix2 e ->
  fin (Bminus mode_NE x y) /\ B2R (Bminus mode_NE x y) = rd (B2R x - B2R y) /\ Rabs (rd (B2R x - B2R y)) <= bpow radix2 e.
Proof.
  intros Hx Hy He H. destruct (sub_ok x y Hx Hy (no_overflow_bpow _ e He H)) as (A & B). split; [exact A|]. split; [exact B|].
  apply rd_abs_bpow; [lia|exact H].
Qed.
Lemma div_small (x y : f64) e : fin x -> B2R y <> 0 -> (-1074 <= e < 1024)%Z -> Rabs (B2R x / B2R y) <= bpow radix2 e ->
  fin (Bdiv mode_NE x y) /\ B2R (Bdiv mode_NE x y) = rd (B2R x / B2R y) /\ Rabs (rd (B2R x / B2R y)) <= bpow radix2 e.
Proof.
  intros Hx Hy He H. destruct (div_ok x y Hx Hy (no_overflow_bpow _ e He H)) as (A & B). split; [exact A|]. split; [exact B|].
  apply rd_abs_bpow; [lia|exact H].
Qed.
Lemma twice e a b : Rabs a <= bpow radix2 e -> Rabs b <= bpow radix2 e -> Rabs (a + b) <= bpow radix2 (1 + e).
Proof. intros Ha Hb. rewrite bpow_plus. change (bpow radix2 1) with 2. eapply Rle_trans; [apply Rabs_triang|]. lra. Qed.

Section Normalise.
  Context (lm : LibmB).
  Let NB : Num f64 := NumB lm.
  #[local] Existing Instance NB.
  Lemma normalize_near (v : Vector f64) : ordinary v -> unit_within (64 * u64) (v_normalize v) /\
    (exists m, 0 < m /\ (1 - 8 * u64) * square_length v <= m * m <= (1 + 8 * u64) * square_length v /\
       let near n w := Rabs (B2R n - B2R w / m) <= 3 * u64 in
       near (vx (v_normalize v)) (vx v) /\ near (vy (v_normalize v)) (vy v) /\ near (vz (v_normalize v)) (vz v)).
  Proof.
    intros ((Fx & Fy & Fz) & (Bx & By & Bz) & HL).
    destruct v as [x y z]. cbn [vx vy vz] in *. unfold unit_within, numbers, square_length, v_normalize, v_magnitude. cbn [vx vy vz].
    change (@nmul f64 NB) with (Bmult mode_NE : f64 -> f64 -> f64). change (@nadd f64 NB) with (Bplus mode_NE : f64 -> f64 -> f64).
    change (@ndiv f64 NB) with (Bdiv mode_NE : f64 -> f64 -> f64). change (@nsqrt f64 NB) with (Bsqrt mode_NE : f64 -> f64).
    destruct (mul_small x x 1000 Fx Fx ltac:(lia) (square_bound _ 500 Bx)) as (F1 & E1 & L1).
    destruct (mul_small y y 1000 Fy Fy ltac:(lia) (square_bound _ 500 By)) as (F2 & E2 & L2).
    destruct (mul_small z z 1000 Fz Fz ltac:(lia) (square_bound _ 500 Bz)) as (F3 & E3 & L3).
    rewrite <- E1 in L1. rewrite <- E2 in L2. rewrite <- E3 in L3.
    destruct (add_small _ _ 1001 F1 F2 ltac:(lia) (twice 1000 _ _ L1 L2)) as (F4 & E4 & L4). rewrite <- E4 in L4.
    assert (L3' : Rabs (B2R (Bmult mode_NE z z)) <= bpow radix2 1001) by (eapply Rle_trans; [exact L3|apply bpow_le; lia]).
    destruct (add_small _ _ 1002 F4 F3 ltac:(lia) (twice 1001 _ _ L4 L3')) as (F5 & E5 & L5).
    set (s := Bplus mode_NE (Bplus mode_NE (Bmult mode_NE x x) (Bmult mode_NE y y)) (Bmult mode_NE z z)) in *.
    set (T := B2R x * B2R x + B2R y * B2R y + B2R z * B2R z).
    assert (P : forall t : R, 0 <= t * t) by (intros; nra).
    assert (HB : bpow radix2 (-1000) <= T).
    { assert (K : forall t, bpow radix2 (-500) <= Rabs t -> bpow radix2 (-1000) <= t * t).
      { intros t Ht. replace (t * t) with (Rabs t * Rabs t) by (rewrite <- Rabs_mult; apply Rabs_pos_eq, P).
        change (-1000)%Z with (-500 + -500)%Z. rewrite bpow_plus. apply Rmult_le_compat; try apply bpow_ge_0; assumption. }
      pose proof (P (B2R x)). pose proof (P (B2R y)). pose proof (P (B2R z)). unfold T. destruct HL as [H'|[H'|H']]; apply K in H'; lra. }
    assert (HT : 0 < T) by (eapply Rlt_le_trans; [apply (bpow_gt_0 radix2 (-1000))|exact HB]).
    assert (HE : eta <= u64 * T / 1000).
    { apply Rle_trans with (bpow radix2 (-64) * bpow radix2 (-1000)).
      - rewrite <- bpow_plus. apply bpow_le. lia.
      - replace (u64 * T / 1000) with (u64 / 1000 * T) by field. apply Rmult_le_compat; try apply bpow_ge_0; [|exact HB]. rewrite u64_val. cbn. lra. }
    pose proof (sum_near _ _ _ _ _ _ _ _ (P _) (P _) (P _) HE E1 E2 E3 E4 E5) as HS. fold T in HS.
    assert (Hs0 : 0 <= B2R s).
    { apply Rabs_le_inv in HS. assert (0 < u64 <= / 1000000) by (rewrite u64_val; lra). nra. }
    destruct (sqrt_ok s F5 Hs0) as (F6 & E6). set (m := Bsqrt mode_NE s) in *.
    destruct (sqrt_near T (B2R s) (B2R m) HT HB HS E6) as (HM & MP).
    destruct (normal_near (B2R x) (B2R y) (B2R z) (B2R m) _ _ _ HT HM MP eq_refl eq_refl eq_refl) as ((Q1 & Q2 & Q3) & HU).
    assert (M0 : B2R m <> 0) by lra.
    destruct (div_small x m 1 Fx M0 ltac:(lia) Q1) as (D1 & G1 & _).
    destruct (div_small y m 1 Fy M0 ltac:(lia) Q2) as (D2 & G2 & _).
    destruct (div_small z m 1 Fz M0 ltac:(lia) Q3) as (D3 & G3 & _).
    split; [split; [auto|rewrite G1, G2, G3; exact HU]|]. exists (B2R m). split; [exact MP|]. split; [exact HM|]. cbv zeta. rewrite G1, G2, G3.
    split; [|split]; apply quotient_near; auto.
  Qed.
End Normalise.

(** ** turning *)
Definition two (k : Z) : R := bpow radix2 k.
Lemma rd_within x e : (-900 <= e)%Z -> Rabs x <= bpow radix2 e -> Rabs (rd x - x) <= bpow radix2 (e - 52).
Proof.
  intros He H. eapply Rle_trans; [apply rd_near|]. replace (e - 52)%Z with (1 + (e - 53))%Z by lia. rewrite bpow_plus. change (bpow radix2 1) with 2.
  assert (u64 * Rabs x <= bpow radix2 (e - 53)).
  { replace (e - 53)%Z with (-53 + e)%Z by lia. rewrite bpow_plus. apply Rmult_le_compat_l; [apply bpow_ge_0|exact H]. }
  assert (eta <= bpow radix2 (e - 53)) by (apply bpow_le; lia). lra.
Qed.
Lemma prod_e a b i j : Rabs a <= bpow radix2 i -> Rabs b <= bpow radix2 j -> Rabs (a * b) <= bpow radix2 (i + j).
Proof. intros Ha Hb. rewrite Rabs_mult, bpow_plus. apply Rmult_le_compat; try apply Rabs_pos; assumption. Qed.
Lemma mul_e (x y : f64) i j k : fin x -> fin y -> Rabs (B2R x) <= bpow radix2 i -> Rabs (B2R y) <= bpow radix2 j -> k = (i + j)%Z -> (-900 <= k < 1024)%Z ->
  fin (Bmult mode_NE x y) /\ Rabs (B2R (Bmult mode_NE x y) - B2R x * B2R y) <= bpow radix2 (k - 52) /\ Rabs (B2R (Bmult mode_NE x y)) <= bpow radix2 k.
Proof.
  intros Hx Hy Bx By -> He. pose proof (prod_e _ _ _ _ Bx By) as P. destruct (mul_small x y (i + j) Hx Hy ltac:(lia) P) as (A & -> & C).
  split; [exact A|]. split; [apply rd_within; [lia|exact P]|exact C].
Qed.
Lemma add_e (x y : f64) i k : fin x -> fin y -> Rabs (B2R x) <= bpow radix2 i -> Rabs (B2R y) <= bpow radix2 i -> k = (1 + i)%Z -> (-900 <= k < 1024)%Z ->
  fin (Bplus mode_NE x y) /\ Rabs (B2R (Bplus mode_NE x y) - (B2R x + B2R y)) <= bpow radix2 (k - 52) /\ Rabs (B2R (Bplus mode_NE x y)) <= bpow radix2 k.
Proof.
  intros Hx Hy Bx By -> He. pose proof (twice _ _ _ Bx By) as P. destruct (add_small x y (1 + i) Hx Hy ltac:(lia) P) as (A & -> & C).
  split; [exact A|]. split; [apply rd_within; [lia|exact P]|exact C].
Qed.
Lemma sub_e (x y : f64) i k : fin x -> fin y -> Rabs (B2R x) <= bpow radix2 i -> Rabs (B2R y) <= bpow radix2 i -> k = (1 + i)%Z -> (-900 <= k < 1024)%Z ->
  fin (Bminus mode_NE x y) /\ Rabs (B2R (Bminus mode_NE x y) - (B2R x - B2R y)) <= bpow radix2 (k - 52) /\ Rabs (B2R (Bminus mode_NE x y)) <= bpow radix2 k.
Proof.
  intros Hx Hy Bx By -> He. assert (P : Rabs (B2R x - B2R y) <= bpow radix2 (1 + i)) by (apply twice; [exact Bx|rewrite Rabs_Ropp; exact By]).
  destruct (sub_small x y (1 + i) Hx Hy ltac:(lia) P) as (A & -> & C).
  split; [exact A|]. split; [apply rd_within; [lia|exact P]|exact C].
Qed.
Lemma div_e (x y : f64) k : fin x -> B2R y <> 0 -> Rabs (B2R x / B2R y) <= bpow radix2 k -> (-900 <= k < 1024)%Z ->
  fin (Bdiv mode_NE x y) /\ Rabs (B2R (Bdiv mode_NE x y) - B2R x / B2R y) <= bpow radix2 (k - 52) /\ Rabs (B2R (Bdiv mode_NE x y)) <= bpow radix2 k.
Proof.
  intros Hx Hy P He. destruct (div_small x y k Hx Hy ltac:(lia) P) as (A & -> & C).
  split; [exact A|]. split; [apply rd_within; [lia|exact P]|exact C].
Qed.
Lemma prod_err x x' y y' d d' B B' : Rabs (x - x') <= d -> Rabs (y - y') <= d' -> Rabs x' <= B -> Rabs y <= B' -> Rabs (x * y - x' * y') <= d * B' + B * d'.
Proof.
  intros H1 H2 H3 H4. replace (x * y - x' * y') with ((x - x') * y + x' * (y - y')) by ring. eapply Rle_trans; [apply Rabs_triang|]. rewrite !Rabs_mult.
  apply Rplus_le_compat; apply Rmult_le_compat; try apply Rabs_pos; assumption.
Qed.
Lemma weaken e k (x : R) : Rabs x <= bpow radix2 e -> (e <= k)%Z -> Rabs x <= bpow radix2 k.
Proof. intros H L. eapply Rle_trans; [exact H|apply bpow_le; exact L]. Qed.
Lemma plus_err x x' y y' d d' : Rabs (x - x') <= d -> Rabs (y - y') <= d' -> Rabs (x + y - (x' + y')) <= d + d'.
Proof. intros H1 H2. replace (x + y - (x' + y')) with ((x - x') + (y - y')) by ring. eapply Rle_trans; [apply Rabs_triang|]. lra. Qed.
Lemma chain_err x y z d d' : Rabs (x - y) <= d -> Rabs (y - z) <= d' -> Rabs (x - z) <= d + d'.
Proof. intros H1 H2. replace (x - z) with ((x - y) + (y - z)) by ring. eapply Rle_trans; [apply Rabs_triang|]. lra. Qed.
Lemma minus_err x x' y y' d d' : Rabs (x - x') <= d -> Rabs (y - y') <= d' -> Rabs (x - y - (x' - y')) <= d + d'.
Proof. intros H1 H2. replace (x - y - (x' - y')) with ((x - x') + - (y - y')) by ring. eapply Rle_trans; [apply Rabs_triang|]. rewrite Rabs_Ropp. lra. Qed.

(** the exact rotation, with nearly exact data *)
Lemma exact_turn t1 t2 p q c b a S nu sg e1 e2 :
  c * c + b * b + a * a = 1 + nu -> S * S = 1 - c * c + sg -> t1 * t1 + t2 * t2 = 1 + e1 -> p * p + q * q = 1 + e2 -> / 2048 <= S ->
  let W1 := t1 * c + t2 * p * S in let W2 := t1 * b - t2 / S * (p * c * b - q * a) in let W3 := t1 * a - t2 / S * (p * c * a + q * b) in
  W1 * W1 + W2 * W2 + W3 * W3 = t1 * t1 * (1 + nu) + 2 * (t1 * t2 * p * c) * ((sg - nu) / S) + t2 * t2 * (1 + e2 + p * p * sg + (p * p * (c * c) + q * q) * ((nu - sg) / (S * S))) /\
  W1 * c + W2 * b + W3 * a = t1 * (1 + nu) + t2 * p * c * ((sg - nu) / S).
Proof.
  intros HN HS HT HP HL W1 W2 W3.
  assert (HA : a * a = S * S - sg + nu - b * b) by lra. assert (HC : c * c = 1 + sg - S * S) by lra. assert (HQ : q * q = 1 + e2 - p * p) by lra.
  split.
  - unfold W1, W2, W3.
    replace ((t1 * c + t2 * p * S) * (t1 * c + t2 * p * S) + (t1 * b - t2 / S * (p * c * b - q * a)) * (t1 * b - t2 / S * (p * c * b - q * a)) +
             (t1 * a - t2 / S * (p * c * a + q * b)) * (t1 * a - t2 / S * (p * c * a + q * b)))
      with (t1 * t1 * (c * c + b * b + a * a) + 2 * (t1 * t2 * p * c) * ((S * S - (b * b + a * a)) / S) +
            t2 * t2 * (p * p * (S * S) + (p * p * (c * c) + q * q) * ((b * b + a * a) / (S * S)))) by (field; lra).
    rewrite HN. replace (b * b + a * a) with (S * S - sg + nu) by lra.
    replace ((S * S - sg + nu) / (S * S)) with (1 + (nu - sg) / (S * S)) by (field; lra).
    replace (S * S - (S * S - sg + nu)) with (sg - nu) by ring. f_equal. f_equal.
    replace (p * p * (S * S) + (p * p * (c * c) + q * q) * (1 + (nu - sg) / (S * S)))
      with (p * p * (S * S + c * c) + q * q + (p * p * (c * c) + q * q) * ((nu - sg) / (S * S))) by ring.
    replace (S * S + c * c) with (1 + sg) by lra. replace (p * p * (1 + sg) + q * q) with ((p * p + q * q) + p * p * sg) by ring. rewrite HP. ring.
  - unfold W1, W2, W3.
    replace ((t1 * c + t2 * p * S) * c + (t1 * b - t2 / S * (p * c * b - q * a)) * b + (t1 * a - t2 / S * (p * c * a + q * b)) * a)
      with (t1 * (c * c + b * b + a * a) + t2 * p * c * ((S * S - (b * b + a * a)) / S)) by (field; lra).
    rewrite HN. replace (b * b + a * a) with (S * S - sg + nu) by lra. replace (S * S - (S * S - sg + nu)) with (sg - nu) by ring. reflexivity.
Qed.
Lemma abs_sq x : Rabs x * Rabs x = x * x.
Proof. rewrite <- Rabs_mult. apply Rabs_pos_eq. nra. Qed.
Lemma sq0 x : 0 <= x * x.
Proof. nra. Qed.
Lemma below_two x : x * x <= 2 -> Rabs x <= 2.
Proof. intros H. apply Rabs_le. nra. Qed.
Lemma half_product x y : x * x + y * y <= 2 -> Rabs (x * y) <= 1.
Proof. intros H. pose proof (sq0 (x - y)). pose proof (sq0 (x + y)). apply Rabs_le. lra. Qed.
Lemma exact_turn_near t1 t2 p q c b a S :
  Rabs (c * c + b * b + a * a - 1) <= / 2 ^ 47 -> Rabs (S * S - (1 - c * c)) <= / 2 ^ 48 -> Rabs (t2 * t2 + t1 * t1 - 1) <= / 2 ^ 50 -> Rabs (q * q + p * p - 1) <= / 2 ^ 50 -> / 2048 <= S ->
  let W1 := t1 * c + t2 * p * S in let W2 := t1 * b - t2 / S * (p * c * b - q * a) in let W3 := t1 * a - t2 / S * (p * c * a + q * b) in
  Rabs (W1 * W1 + W2 * W2 + W3 * W3 - 1) <= / 2 ^ 22 /\ Rabs (W1 * c + W2 * b + W3 * a - t1) <= / 2 ^ 30.
Proof.
  intros HN HS HT HP HL W1 W2 W3.
  set (nu := c * c + b * b + a * a - 1) in *. set (sg := S * S - (1 - c * c)) in *. set (e1 := t2 * t2 + t1 * t1 - 1) in *. set (e2 := q * q + p * p - 1) in *.
  unfold W1, W2, W3. destruct (exact_turn t1 t2 p q c b a S nu sg e1 e2 ltac:(unfold nu; ring) ltac:(unfold sg; ring) ltac:(unfold e1; ring) ltac:(unfold e2; ring) HL) as (-> & ->).
  assert (T2 : t1 * t1 + t2 * t2 = 1 + e1) by (unfold e1; ring). assert (P2 : p * p + q * q = 1 + e2) by (unfold e2; ring).
  assert (C2 : c * c <= 1 + nu) by (unfold nu; nra).
  clearbody nu sg e1 e2. clear W1 W2 W3. apply Rabs_le_inv in HN, HS, HT, HP.
  assert (D : forall k, Rabs (sg - nu) / k = Rabs (sg - nu) * / k) by reflexivity.
  assert (I : 0 < / S <= 2048).
  { split; [apply Rinv_0_lt_compat; lra|]. rewrite <- (Rinv_inv 2048). apply Rinv_le_contravar; lra. }
  set (i := / S) in *. assert (E1 : (sg - nu) / S = (sg - nu) * i) by reflexivity.
  assert (E2 : (nu - sg) / (S * S) = - ((sg - nu) * i * i)) by (unfold i; field; lra). rewrite E1, E2. clearbody i.
  assert (K1 : Rabs ((sg - nu) * i) <= / 2 ^ 35).
  { rewrite Rabs_mult, (Rabs_pos_eq i) by lra. apply Rle_trans with (/ 2 ^ 46 * 2048); [|lra]. apply Rmult_le_compat; try lra; [apply Rabs_pos|]. apply Rabs_le. lra. }
  set (k := (sg - nu) * i) in *. assert (K2 : Rabs (k * i) <= / 2 ^ 24).
  { rewrite Rabs_mult, (Rabs_pos_eq i) by lra. apply Rle_trans with (/ 2 ^ 35 * 2048); [|lra]. apply Rmult_le_compat; try lra; apply Rabs_pos. }
  set (k2 := k * i) in *. clearbody k2 k. clear E1 E2 I.
  assert (X1 : Rabs (t1 * t2) <= 1) by (apply half_product; lra).
  assert (X2 : Rabs (p * c) <= 2).
  { assert (-2 <= p * c <= 2); [|apply Rabs_le; lra]. pose proof (sq0 (p - c)). pose proof (sq0 (p + c)). pose proof (sq0 q). lra. }
  assert (X3 : Rabs (t2 * (p * c)) <= 4).
  { rewrite Rabs_mult. replace 4 with (2 * 2) by ring. apply Rmult_le_compat; try apply Rabs_pos; [apply below_two; pose proof (sq0 t1); lra|exact X2]. }
  split.
  - assert (Y1 : Rabs (2 * (t1 * t2 * p * c) * k) <= 4 * / 2 ^ 35).
    { rewrite Rabs_mult. apply Rmult_le_compat; try apply Rabs_pos; [|exact K1].
      replace (2 * (t1 * t2 * p * c)) with (2 * ((t1 * t2) * (p * c))) by ring. rewrite (Rabs_mult 2), (Rabs_pos_eq 2) by lra.
      replace 4 with (2 * (1 * 2)) by ring. apply Rmult_le_compat_l; [lra|]. rewrite Rabs_mult.
      apply Rmult_le_compat; try apply Rabs_pos; assumption. }
    assert (Y2 : Rabs ((p * p * (c * c) + q * q) * k2) <= (101 / 100) * / 2 ^ 24).
    { rewrite Rabs_mult. apply Rmult_le_compat; try apply Rabs_pos; [|exact K2].
      pose proof (sq0 p). pose proof (sq0 q). pose proof (sq0 c). rewrite Rabs_pos_eq by nra.
      apply Rle_trans with (p * p * (1 + / 2 ^ 47) + q * q); [|lra]. apply Rplus_le_compat_r, Rmult_le_compat_l; lra. }
    assert (Y3 : Rabs (p * p * sg) <= 2 * / 2 ^ 48).
    { rewrite Rabs_mult. pose proof (sq0 p). pose proof (sq0 q). rewrite (Rabs_pos_eq (p * p)) by lra.
      apply Rmult_le_compat; try lra; [apply Rabs_pos|apply Rabs_le; lra]. }
    apply Rabs_le_inv in Y1, Y2, Y3.
    set (y1 := 2 * (t1 * t2 * p * c) * k) in *. replace ((p * p * (c * c) + q * q) * - k2) with (- ((p * p * (c * c) + q * q) * k2)) by ring.
    set (y2 := (p * p * (c * c) + q * q) * k2) in *. set (y3 := p * p * sg) in *. clearbody y1 y2 y3.
    pose proof (sq0 t1). pose proof (sq0 t2).
    assert (Z1 : Rabs (t1 * t1 * nu) <= 2 * / 2 ^ 47) by (rewrite Rabs_mult, (Rabs_pos_eq (t1 * t1)) by lra; apply Rmult_le_compat; try lra; [apply Rabs_pos|apply Rabs_le; lra]).
    assert (Z2 : Rabs (t2 * t2 * (e2 + y3 + - y2)) <= (101 / 100) * (/ 2 ^ 50 + 2 * / 2 ^ 48 + (101 / 100) * / 2 ^ 24)).
    { rewrite Rabs_mult, (Rabs_pos_eq (t2 * t2)) by lra. apply Rmult_le_compat; try lra; [apply Rabs_pos|apply Rabs_le; lra]. }
    apply Rabs_le_inv in Z1, Z2. replace (t1 * t1 * (1 + nu) + y1 + t2 * t2 * (1 + e2 + y3 + - y2) - 1)
      with ((t1 * t1 + t2 * t2 - 1) + t1 * t1 * nu + y1 + t2 * t2 * (e2 + y3 + - y2)) by ring. rewrite T2. apply Rabs_le. lra.
  - assert (Y1 : Rabs (t2 * p * c * k) <= 4 * / 2 ^ 35).
    { rewrite Rabs_mult. apply Rmult_le_compat; try apply Rabs_pos; [|exact K1]. replace (t2 * p * c) with (t2 * (p * c)) by ring. exact X3. }
    assert (Z1 : Rabs (t1 * nu) <= 2 * / 2 ^ 47) by (rewrite Rabs_mult; apply Rmult_le_compat; try apply Rabs_pos; [apply below_two; pose proof (sq0 t2); lra|apply Rabs_le; lra]).
    apply Rabs_le_inv in Y1, Z1. replace (t1 * (1 + nu) + t2 * p * c * k - t1) with (t1 * nu + t2 * p * c * k) by ring. apply Rabs_le. lra.
Qed.
Ltac vals := repeat match goal with
  | H : context [bpow radix2 ?k] |- _ => let v := eval cbn in (bpow radix2 k) in change (bpow radix2 k) with v in H end.

Section Turning.
  Context (lm : LibmB).
  Let NB : Num f64 := NumB lm.
  #[local] Existing Instance NB.
  Lemma one_is_one : fin (nZ 1 : f64) /\ B2R (nZ 1 : f64) = 1.
  Proof.
    change (nZ 1 : f64) with (of_sf (sf_lit 1 0)). set (one := of_sf (sf_lit 1 0)).
    assert (E : B2SF one = S754_finite false 4503599627370496 (-52)) by (unfold one; rewrite of_sf_valid; reflexivity).
    split; [rewrite <- is_finite_SF_B2SF, E; reflexivity|]. rewrite <- SF2R_B2SF, E. unfold SF2R, F2R. cbn. lra.
  Qed.
  (** the sine of the angle with the x axis *)
  Lemma sine_near (c : f64) : fin c -> Rabs (B2R c) <= 1 - / 2 ^ 20 ->
    let S : f64 := nsqrt (nsub (nZ 1) (nmul c c)) in fin S /\ Rabs (B2R S * B2R S - (1 - B2R c * B2R c)) <= / 2 ^ 48 /\ / 2048 <= B2R S <= 2.
  Proof.
    intros Fc Hc S. unfold S. change (@nsqrt f64 NB) with (Bsqrt mode_NE : f64 -> f64). change (@nsub f64 NB) with (Bminus mode_NE : f64 -> f64 -> f64).
    change (@nmul f64 NB) with (Bmult mode_NE : f64 -> f64 -> f64). destruct one_is_one as (F1 & E1).
    assert (B0 : Rabs (B2R c) <= bpow radix2 0) by (cbn; lra).
    destruct (mul_e c c 0 0 0 Fc Fc B0 B0 eq_refl ltac:(lia)) as (F2 & E2 & L2).
    assert (B1 : Rabs (B2R (nZ 1 : f64)) <= bpow radix2 0) by (rewrite E1; cbn; rewrite Rabs_pos_eq; lra).
    destruct (sub_e (nZ 1) _ 0 1 F1 F2 B1 L2 eq_refl ltac:(lia)) as (F3 & E3 & L3). match type of F2 with is_finite ?t = true => set (cc := t) in * end. match type of F3 with is_finite ?t = true => set (d := t) in * end. rewrite E1 in E3. vals. apply Rabs_le_inv in E2, E3, L3.
    assert (HC : B2R c * B2R c <= (1 - / 2 ^ 20) * (1 - / 2 ^ 20)) by (rewrite <- (abs_sq (B2R c)); apply Rmult_le_compat; try apply Rabs_pos; exact Hc).
    pose proof (sq0 (B2R c)) as HC0.
    assert (D : / 2 ^ 20 <= B2R d) by lra.
    destruct (sqrt_ok d F3 ltac:(lra)) as (F4 & E4). split; [exact F4|]. rewrite E4.
    set (r := sqrt (B2R d)). assert (R0 : 0 <= r) by apply sqrt_pos. assert (R2 : r * r = B2R d) by (apply sqrt_sqrt; lra).
    assert (R3 : r <= 3 / 2) by nra. assert (RB : Rabs r <= bpow radix2 1) by (cbn; rewrite Rabs_pos_eq; lra).
    pose proof (rd_within r 1 ltac:(lia) RB) as A. vals. set (s := rd r) in *. clearbody s. apply Rabs_le_inv in A.
    assert (R4 : / 1024 <= r).
    { destruct (Rle_or_lt (/ 1024) r) as [L|L]; [exact L|]. exfalso. assert (r * r < / 1024 * / 1024) by (apply Rmult_le_0_lt_compat; assumption). lra. }
    split; [|split; lra].
    replace (s * s - (1 - B2R c * B2R c)) with ((s - r) * (s - r) + 2 * r * (s - r) + (r * r - (1 - B2R c * B2R c))) by ring. rewrite R2.
    assert (X1 : Rabs (2 * r * (s - r)) <= 3 * / 2251799813685248) by (rewrite Rabs_mult; apply Rmult_le_compat; try apply Rabs_pos; apply Rabs_le; lra).
    assert (X2 : Rabs ((s - r) * (s - r)) <= / 2251799813685248 * / 1000) by (rewrite Rabs_mult; apply Rmult_le_compat; try apply Rabs_pos; apply Rabs_le; lra).
    apply Rabs_le_inv in X1, X2. apply Rabs_le. lra.
  Qed.
  (** one of the two transverse components: T c - (U / S) (P C c +- Q d) *)
  Lemma transverse_near (t1 t2 p q c b a s inner : f64) (sgn : R) :
    fin t1 -> fin t2 -> fin p -> fin c -> fin b -> fin s -> Rabs (B2R t1) <= 2 -> Rabs (B2R t2) <= 2 -> Rabs (B2R b) <= 2 -> / 2048 <= B2R s ->
    fin inner -> Rabs (B2R inner) <= 16 -> Rabs (B2R inner - (B2R p * B2R c * B2R b + sgn * (B2R q * B2R a))) <= / 2 ^ 46 ->
    let y : f64 := nsub (nmul t1 b) (nmul (ndiv t2 s) inner) in
    fin y /\ Rabs (B2R y - (B2R t1 * B2R b - B2R t2 / B2R s * (B2R p * B2R c * B2R b + sgn * (B2R q * B2R a)))) <= / 2 ^ 32.
  Proof.
    intros F1 F2 Fp Fc Fb Fs L1 L2 Lb Ls Fi Li Ei y. unfold y. change (@nsub f64 NB) with (Bminus mode_NE : f64 -> f64 -> f64).
    change (@nmul f64 NB) with (Bmult mode_NE : f64 -> f64 -> f64). change (@ndiv f64 NB) with (Bdiv mode_NE : f64 -> f64 -> f64).
    set (A0 := B2R p * B2R c * B2R b + sgn * (B2R q * B2R a)) in *. clearbody A0. clear Fp Fc.
    assert (S0 : B2R s <> 0) by lra.
    assert (Q : Rabs (B2R t2 / B2R s) <= 4096).
    { unfold Rdiv. rewrite Rabs_mult, Rabs_inv, (Rabs_pos_eq (B2R s)) by lra. replace 4096 with (2 * 2048) by ring.
      apply Rmult_le_compat; try apply Rabs_pos; [apply Rlt_le, Rinv_0_lt_compat; lra|exact L2|]. rewrite <- (Rinv_inv 2048). apply Rinv_le_contravar; lra. }
    assert (Q' : Rabs (B2R t2 / B2R s) <= bpow radix2 12) by (cbn; lra).
    destruct (div_e t2 s 12 F2 S0 Q' ltac:(lia)) as (F3 & E3 & L3).
    assert (Li' : Rabs (B2R inner) <= bpow radix2 4) by (cbn; lra).
    destruct (mul_e _ inner 12 4 16 F3 Fi L3 Li' eq_refl ltac:(lia)) as (F4 & E4 & L4).
    assert (L1' : Rabs (B2R t1) <= bpow radix2 1) by (cbn; lra). assert (Lb' : Rabs (B2R b) <= bpow radix2 1) by (cbn; lra).
    destruct (mul_e t1 b 1 1 2 F1 Fb L1' Lb' eq_refl ltac:(lia)) as (F5 & E5 & L5).
    destruct (sub_e _ _ 16 17 F5 F4 (weaken _ 16 _ L5 ltac:(lia)) L4 eq_refl ltac:(lia)) as (F6 & E6 & _). split; [exact F6|].
    pose proof (prod_err _ _ _ _ _ _ _ _ E3 Ei Q Li) as X. pose proof (chain_err _ _ _ _ _ E4 X) as Y. pose proof (minus_err _ _ _ _ _ _ E5 Y) as Z.
    pose proof (chain_err _ _ _ _ _ E6 Z) as V. eapply Rle_trans; [exact V|]. cbn. lra.
  Qed.
  Lemma inner_near (p q c b a : f64) (plus : bool) : fin p -> fin q -> fin c -> fin b -> fin a ->
    Rabs (B2R p) <= 2 -> Rabs (B2R q) <= 2 -> Rabs (B2R c) <= 2 -> Rabs (B2R b) <= 2 -> Rabs (B2R a) <= 2 ->
    let i : f64 := if plus then nadd (nmul (nmul p c) b) (nmul q a) else nsub (nmul (nmul p c) b) (nmul q a) in
    fin i /\ Rabs (B2R i) <= 16 /\ Rabs (B2R i - (B2R p * B2R c * B2R b + (if plus then 1 else -1) * (B2R q * B2R a))) <= / 2 ^ 46.
  Proof.
    intros Fp Fq Fc Fb Fa Lp Lq Lc Lb La i. unfold i. change (@nsub f64 NB) with (Bminus mode_NE : f64 -> f64 -> f64). change (@nadd f64 NB) with (Bplus mode_NE : f64 -> f64 -> f64).
    change (@nmul f64 NB) with (Bmult mode_NE : f64 -> f64 -> f64).
    assert (K : forall x : f64, Rabs (B2R x) <= 2 -> Rabs (B2R x) <= bpow radix2 1) by (intros x H; cbn; lra).
    destruct (mul_e p c 1 1 2 Fp Fc (K _ Lp) (K _ Lc) eq_refl ltac:(lia)) as (F1 & E1 & L1).
    destruct (mul_e _ b 2 1 3 F1 Fb L1 (K _ Lb) eq_refl ltac:(lia)) as (F2 & E2 & L2).
    destruct (mul_e q a 1 1 2 Fq Fa (K _ Lq) (K _ La) eq_refl ltac:(lia)) as (F3 & E3 & L3).
    assert (Z0 : Rabs (B2R b - B2R b) <= 0) by (rewrite Rminus_diag_eq, Rabs_R0 by reflexivity; lra).
    assert (PC : Rabs (B2R p * B2R c) <= 4) by (rewrite Rabs_mult; replace 4 with (2 * 2) by ring; apply Rmult_le_compat; try apply Rabs_pos; assumption).
    pose proof (chain_err _ _ _ _ _ E2 (prod_err _ _ _ _ _ _ _ _ E1 Z0 PC Lb)) as X.
    destruct plus.
    - destruct (add_e _ _ 3 4 F2 F3 L2 (weaken _ 3 _ L3 ltac:(lia)) eq_refl ltac:(lia)) as (F4 & E4 & L4). split; [exact F4|]. split; [cbn in L4; lra|].
      pose proof (chain_err _ _ _ _ _ E4 (plus_err _ _ _ _ _ _ X E3)) as Y. rewrite Rmult_1_l. eapply Rle_trans; [exact Y|]. cbn. lra.
    - destruct (sub_e _ _ 3 4 F2 F3 L2 (weaken _ 3 _ L3 ltac:(lia)) eq_refl ltac:(lia)) as (F4 & E4 & L4). split; [exact F4|]. split; [cbn in L4; lra|].
      pose proof (chain_err _ _ _ _ _ E4 (minus_err _ _ _ _ _ _ X E3)) as Y.
      replace (B2R p * B2R c * B2R b + -1 * (B2R q * B2R a)) with (B2R p * B2R c * B2R b - B2R q * B2R a) by ring. eapply Rle_trans; [exact Y|]. cbn. lra.
  Qed.
  Lemma axial_near (t1 t2 p c s : f64) : fin t1 -> fin t2 -> fin p -> fin c -> fin s ->
    Rabs (B2R t1) <= 2 -> Rabs (B2R t2) <= 2 -> Rabs (B2R p) <= 2 -> Rabs (B2R c) <= 2 -> Rabs (B2R s) <= 2 ->
    let x : f64 := nadd (nmul t1 c) (nmul (nmul t2 p) s) in
    fin x /\ Rabs (B2R x - (B2R t1 * B2R c + B2R t2 * B2R p * B2R s)) <= / 2 ^ 32.
  Proof.
    intros F1 F2 Fp Fc Fs L1 L2 Lp Lc Ls x. unfold x. change (@nadd f64 NB) with (Bplus mode_NE : f64 -> f64 -> f64). change (@nmul f64 NB) with (Bmult mode_NE : f64 -> f64 -> f64).
    assert (K : forall x : f64, Rabs (B2R x) <= 2 -> Rabs (B2R x) <= bpow radix2 1) by (intros x' H; cbn; lra).
    destruct (mul_e t1 c 1 1 2 F1 Fc (K _ L1) (K _ Lc) eq_refl ltac:(lia)) as (G1 & E1 & M1).
    destruct (mul_e t2 p 1 1 2 F2 Fp (K _ L2) (K _ Lp) eq_refl ltac:(lia)) as (G2 & E2 & M2).
    destruct (mul_e _ s 2 1 3 G2 Fs M2 (K _ Ls) eq_refl ltac:(lia)) as (G3 & E3 & M3).
    destruct (add_e _ _ 3 4 G1 G3 (weaken _ 3 _ M1 ltac:(lia)) M3 eq_refl ltac:(lia)) as (G4 & E4 & _). split; [exact G4|].
    assert (Z0 : Rabs (B2R s - B2R s) <= 0) by (rewrite Rminus_diag_eq, Rabs_R0 by reflexivity; lra).
    assert (PC : Rabs (B2R t2 * B2R p) <= 4) by (rewrite Rabs_mult; replace 4 with (2 * 2) by ring; apply Rmult_le_compat; try apply Rabs_pos; assumption).
    pose proof (chain_err _ _ _ _ _ E3 (prod_err _ _ _ _ _ _ _ _ E2 Z0 PC Ls)) as X.
    pose proof (chain_err _ _ _ _ _ E4 (plus_err _ _ _ _ _ _ E1 X)) as Y. eapply Rle_trans; [exact Y|]. cbn. lra.
  Qed.

  Lemma near_square w W : Rabs (w - W) <= / 2 ^ 32 -> W * W <= 2 -> Rabs (w * w - W * W) <= / 2 ^ 29 /\ Rabs w <= 3.
  Proof.
    intros H HW. pose proof (below_two W HW) as B. split.
    - replace (w * w - W * W) with ((w - W) * ((w - W) + 2 * W)) by ring. rewrite Rabs_mult. apply Rle_trans with (/ 2 ^ 32 * 5); [|lra].
      apply Rmult_le_compat; try apply Rabs_pos; [exact H|]. apply Rabs_le_inv in H, B. apply Rabs_le. lra.
    - apply Rabs_le_inv in H, B. apply Rabs_le. lra.
  Qed.
  Lemma turned_is_ordinary (w : Vector f64) W1 W2 W3 : numbers w -> Rabs (B2R (vx w) - W1) <= / 2 ^ 32 -> Rabs (B2R (vy w) - W2) <= / 2 ^ 32 -> Rabs (B2R (vz w) - W3) <= / 2 ^ 32 ->
    Rabs (W1 * W1 + W2 * W2 + W3 * W3 - 1) <= / 2 ^ 22 -> ordinary w /\ Rabs (square_length w - 1) <= / 2 ^ 21.
  Proof.
    intros F H1 H2 H3 HS. apply Rabs_le_inv in HS. pose proof (sq0 W1). pose proof (sq0 W2). pose proof (sq0 W3).
    destruct (near_square _ _ H1 ltac:(lra)) as (N1 & B1). destruct (near_square _ _ H2 ltac:(lra)) as (N2 & B2). destruct (near_square _ _ H3 ltac:(lra)) as (N3 & B3).
    apply Rabs_le_inv in N1, N2, N3. assert (Q : Rabs (square_length w - 1) <= / 2 ^ 21) by (unfold square_length; apply Rabs_le; lra).
    split; [|exact Q]. assert (L : 3 <= bpow radix2 500) by (apply Rle_trans with (bpow radix2 2); [cbn; lra|apply bpow_le; lia]).
    split; [exact F|]. split; [repeat split; lra|].
    assert (S : bpow radix2 (-500) <= / 2) by (change (/ 2) with (bpow radix2 (-1)); apply bpow_le; lia). pose proof (bpow_gt_0 radix2 (-500)) as P.
    assert (K : forall t, Rabs t < bpow radix2 (-500) -> t * t <= / 4).
    { intros t Ht. rewrite <- abs_sq. replace (/ 4) with (/ 2 * / 2) by lra. apply Rmult_le_compat; try apply Rabs_pos; lra. }
    destruct (Rle_or_lt (bpow radix2 (-500)) (Rabs (B2R (vx w)))) as [X|X]; [auto|]. destruct (Rle_or_lt (bpow radix2 (-500)) (Rabs (B2R (vy w)))) as [Y|Y]; [auto|].
    right. right. destruct (Rle_or_lt (bpow radix2 (-500)) (Rabs (B2R (vz w)))) as [Z|Z]; [exact Z|].
    apply K in X, Y, Z. apply Rabs_le_inv in Q. unfold square_length in Q. lra.
  Qed.
  Lemma scaled_product n1 n2 n3 w1 w2 w3 W1 W2 W3 d1 d2 d3 m t :
    Rabs (n1 - w1 / m) <= 3 * u64 -> Rabs (n2 - w2 / m) <= 3 * u64 -> Rabs (n3 - w3 / m) <= 3 * u64 ->
    Rabs (w1 - W1) <= / 2 ^ 32 -> Rabs (w2 - W2) <= / 2 ^ 32 -> Rabs (w3 - W3) <= / 2 ^ 32 ->
    Rabs d1 <= 2 -> Rabs d2 <= 2 -> Rabs d3 <= 2 -> Rabs t <= 2 -> 0 < m -> 1 - / 2 ^ 20 <= m * m <= 1 + / 2 ^ 20 ->
    Rabs (W1 * d1 + W2 * d2 + W3 * d3 - t) <= / 2 ^ 30 -> Rabs (n1 * d1 + n2 * d2 + n3 * d3 - t) <= / 2 ^ 18.
  Proof.
    intros N1 N2 N3 V1 V2 V3 D1 D2 D3 HT HM HMM HD.
    assert (M : Rabs (/ m - 1) <= / 2 ^ 20).
    { assert (m <= 1 + / 2 ^ 20) by nra. assert (1 - / 2 ^ 20 <= m) by nra.
      assert (Mi : 0 < / m <= 2) by (split; [apply Rinv_0_lt_compat; lra|rewrite <- (Rinv_inv 2); apply Rinv_le_contravar; lra]).
      assert (I : m * / m = 1) by (apply Rinv_r; lra).
      assert (m <= 1 + / 2 ^ 21) by nra. assert (1 - 501 / 1000 * / 2 ^ 20 <= m) by nra.
      set (i := / m) in *. clearbody i. apply Rabs_le. split; nra. }
    assert (P : forall e d B, Rabs e <= B -> Rabs d <= 2 -> Rabs (e * d) <= B * 2) by (intros e d B He Hd; rewrite Rabs_mult; apply Rmult_le_compat; try apply Rabs_pos; assumption).
    pose proof (P _ _ _ N1 D1) as A1. pose proof (P _ _ _ N2 D2) as A2. pose proof (P _ _ _ N3 D3) as A3.
    pose proof (P _ _ _ V1 D1) as C1. pose proof (P _ _ _ V2 D2) as C2. pose proof (P _ _ _ V3 D3) as C3.
    set (s := w1 * d1 + w2 * d2 + w3 * d3).
    assert (HS : Rabs (s - t) <= / 2 ^ 28).
    { apply Rabs_le_inv in C1, C2, C3, HD. unfold s. apply Rabs_le. lra. }
    assert (HSm : Rabs (s * (/ m - 1)) <= (2 + / 2 ^ 28) * / 2 ^ 20).
    { rewrite Rabs_mult. apply Rmult_le_compat; try apply Rabs_pos; [|exact M]. apply Rabs_le_inv in HS, HT. apply Rabs_le. lra. }
    replace (n1 * d1 + n2 * d2 + n3 * d3 - t) with ((n1 - w1 / m) * d1 + (n2 - w2 / m) * d2 + (n3 - w3 / m) * d3 + s * (/ m - 1) + (s - t)) by (unfold s, Rdiv; ring).
    apply Rabs_le_inv in A1, A2, A3, HS, HSm. rewrite u64_val in *. 
    apply Rabs_le. lra.
  Qed.

  Lemma rotate_near (dir : Vector f64) (psi phi : f64) : unit_within (/ 2 ^ 47) dir -> off_axis dir -> good_angle lm psi -> good_angle lm phi ->
    unit_within (/ 2 ^ 47) (rotate_dir dir psi phi) /\ Rabs (product (rotate_dir dir psi phi) dir - B2R (lb_cos lm psi)) <= / 2 ^ 18.
  Proof.
    intros ((Fc & Fb & Fa) & HN) HO (Ft2 & Ft1 & HT) (Fq & Fp & HP). destruct dir as [c b a]. unfold off_axis, square_length in *. cbn [vx vy vz] in *.
    set (t1 := lb_cos lm psi) in *. set (t2 := lb_sin lm psi) in *. set (p := lb_cos lm phi) in *. set (q := lb_sin lm phi) in *.
    pose proof (Rabs_le_inv _ _ HN) as HN'. pose proof (Rabs_le_inv _ _ HT) as HT'. pose proof (Rabs_le_inv _ _ HP) as HP'.
    assert (Lc : Rabs (B2R c) <= 2) by (apply below_two; pose proof (sq0 (B2R b)); pose proof (sq0 (B2R a)); lra).
    assert (Lb : Rabs (B2R b) <= 2) by (apply below_two; pose proof (sq0 (B2R c)); pose proof (sq0 (B2R a)); lra).
    assert (La : Rabs (B2R a) <= 2) by (apply below_two; pose proof (sq0 (B2R c)); pose proof (sq0 (B2R b)); lra).
    assert (L1 : Rabs (B2R t1) <= 2) by (apply below_two; pose proof (sq0 (B2R t2)); lra).
    assert (L2 : Rabs (B2R t2) <= 2) by (apply below_two; pose proof (sq0 (B2R t1)); lra).
    assert (Lp : Rabs (B2R p) <= 2) by (apply below_two; pose proof (sq0 (B2R q)); lra).
    assert (Lq : Rabs (B2R q) <= 2) by (apply below_two; pose proof (sq0 (B2R p)); lra).
    destruct (sine_near c Fc HO) as (Fs & HS & (Ls & Ls2)). set (S := nsqrt (nsub (nZ 1) (nmul c c)) : f64) in *.
    destruct (axial_near t1 t2 p c S Ft1 Ft2 Fp Fc Fs L1 L2 Lp Lc ltac:(apply Rabs_le; lra)) as (F1 & E1).
    destruct (inner_near p q c b a false Fp Fq Fc Fb Fa Lp Lq Lc Lb La) as (G2 & K2 & I2).
    destruct (transverse_near t1 t2 p q c b a S _ _ Ft1 Ft2 Fp Fc Fb Fs L1 L2 Lb Ls G2 K2 I2) as (F2 & E2).
    destruct (inner_near p q c a b true Fp Fq Fc Fa Fb Lp Lq Lc La Lb) as (G3 & K3 & I3).
    destruct (transverse_near t1 t2 p q c a b S _ _ Ft1 Ft2 Fp Fc Fa Fs L1 L2 La Ls G3 K3 I3) as (F3 & E3).
    replace (B2R p * B2R c * B2R b + -1 * (B2R q * B2R a)) with (B2R p * B2R c * B2R b - B2R q * B2R a) in E2 by ring.
    replace (B2R p * B2R c * B2R a + 1 * (B2R q * B2R b)) with (B2R p * B2R c * B2R a + B2R q * B2R b) in E3 by ring.
    destruct (exact_turn_near (B2R t1) (B2R t2) (B2R p) (B2R q) (B2R c) (B2R b) (B2R a) (B2R S) HN HS HT HP Ls) as (X1 & X2).
    set (w1 := nadd (nmul t1 c) (nmul (nmul t2 p) S) : f64) in *.
    set (w2 := nsub (nmul t1 b) (nmul (ndiv t2 S) (nsub (nmul (nmul p c) b) (nmul q a))) : f64) in *.
    set (w3 := nsub (nmul t1 a) (nmul (ndiv t2 S) (nadd (nmul (nmul p c) a) (nmul q b))) : f64) in *.
    set (W1 := B2R t1 * B2R c + B2R t2 * B2R p * B2R S) in *. set (W2 := B2R t1 * B2R b - B2R t2 / B2R S * (B2R p * B2R c * B2R b - B2R q * B2R a)) in *.
    set (W3 := B2R t1 * B2R a - B2R t2 / B2R S * (B2R p * B2R c * B2R a + B2R q * B2R b)) in *.
    change (rotate_dir {| vx := c; vy := b; vz := a |} psi phi) with (v_normalize (mkV w1 w2 w3)).
    set (w := mkV w1 w2 w3) in *.
    destruct (turned_is_ordinary w W1 W2 W3 (conj F1 (conj F2 F3)) E1 E2 E3 X1) as (O & Q).
    destruct (normalize_near lm w O) as (U & m & M0 & MM & N1 & N2 & N3). cbv zeta in *.
    assert (U47 : 64 * u64 = / 2 ^ 47) by (rewrite u64_val; lra). rewrite U47 in U. split; [exact U|].
    unfold product. cbn [vx vy vz]. apply Rabs_le_inv in Q. rewrite u64_val in MM.
    assert (MM' : 1 - / 2 ^ 20 <= m * m <= 1 + / 2 ^ 20) by (split; lra).
    exact (scaled_product _ _ _ _ _ _ _ _ _ _ _ _ m _ N1 N2 N3 E1 E2 E3 Lc Lb La L1 M0 MM' X2).
  Qed.
End Turning.
