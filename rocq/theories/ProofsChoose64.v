(** * ProofsChoose64.v - choosing a species in binary64. *)
From Coq Require Import ZArith List Bool Reals Lra Lia Floats.SpecFloat.
From Flocq Require Import Core BinarySingleNaN Relative Plus_error.
From Verif Require Import Num NumSF NumB ProofsFloat SpecFloat64 ModelTypes ModelConsts ModelParticle ModelInteractions
  ModelGeometry ModelMaterial ModelBca Spec ProofsBase ProofsRounding.
Import ListNotations.
Open Scope R_scope.

Definition rsum (l : list f64) : R := fold_right (fun x s => B2R x + s) 0 l.
Lemma rsum_nonneg l : Forall plain_number l -> 0 <= rsum l.
Proof. induction 1 as [|x l [_ Hx] _ IH]; [cbn; lra|]. change (rsum (x :: l)) with (B2R x + rsum l). lra. Qed.

(** one rounded addition of non-negative numbers *)
Lemma add_bounds (x y : f64) : plain_number x -> plain_number y -> fin (Bplus mode_NE x y) ->
  plain_number (Bplus mode_NE x y) /\ B2R x <= B2R (Bplus mode_NE x y) /\ B2R y <= B2R (Bplus mode_NE x y) /\
  (B2R x + B2R y) * (1 - u64) <= B2R (Bplus mode_NE x y) <= (B2R x + B2R y) * (1 + u64).
Proof.
  intros [Fx Lx] [Fy Ly] FS.
  assert (E : B2R (Bplus mode_NE x y) = rd (B2R x + B2R y)).
  { destruct (Rlt_bool (Rabs (rd (B2R x + B2R y))) (bpow radix2 emax)) eqn:E.
    - apply (add_ok x y Fx Fy E).
    - exfalso. pose proof (Bplus_correct prec emax _ _ mode_NE x y Fx Fy) as K. unfold rd in E. rewrite E in K. destruct K as [K _].
      unfold binary_overflow in K. cbn [overflow_to_inf] in K. destruct (Bplus mode_NE x y); cbn in K; try discriminate; try discriminate FS. }
  destruct (FLT_plus_error_N_ex radix2 (-1074) 53 (fun z => negb (Z.even z)) (B2R x) (B2R y)) as (eps & He & Hr).
  - exact (generic_format_B2R prec emax x).
  - exact (generic_format_B2R prec emax y).
  - change (round radix2 (FLT_exp (-1074) 53) (Znearest (fun z : Z => negb (Z.even z))) (B2R x + B2R y)) with (rd (B2R x + B2R y)) in Hr.
    rewrite E. split; [|split; [|split; [|]]].
    + split; [exact FS|]. rewrite E. apply rd_nonneg. lra.
    + apply rd_ge_id. lra.
    + apply rd_ge_id. lra.
    + assert (HU : Rabs eps <= u64).
      { eapply Rle_trans; [exact He|]. unfold u_ro. replace (/ 2 * bpow radix2 (- (53) + 1)) with u64.
        - pose proof u64_small. apply Rmult_le_reg_r with (1 + u64); [lra|]. unfold Rdiv. rewrite Rmult_assoc, Rinv_l by lra. nra.
        - unfold u64. replace (-53)%Z with (-1 + (-(53) + 1))%Z by lia. rewrite bpow_plus. f_equal. }
      apply Rabs_le_inv in HU. rewrite Hr. split; apply Rmult_le_compat_l; lra.
Qed.
Lemma add_fin_l (x y : f64) : plain_number x -> Bleb b0 y = true -> fin (Bplus mode_NE x y) -> fin y.
Proof.
  intros [Fx _] Hy H. destruct y as [s|s| |s m e]; try reflexivity; destruct x as [sx|sx| |sx mx ex]; try discriminate Fx; try discriminate H.
Qed.
Lemma inf_sum l : Forall plain_number l -> fold_left (Bplus mode_NE) l (B754_infinity false : f64) = B754_infinity false.
Proof.
  induction 1 as [|x l [Fx _] _ IH]; [reflexivity|]. cbn [fold_left]. destruct x as [s|s| |s m e]; try discriminate Fx; exact IH.
Qed.
(** a rounded sum *)
Lemma sum_bounds l : Forall plain_number l -> forall acc, plain_number acc ->
  let s := fold_left (Bplus mode_NE) l acc in
  s = B754_infinity false \/
  (plain_number s /\ B2R acc <= B2R s /\ Forall (fun x => B2R x <= B2R s) l /\
   (B2R acc + rsum l) * (1 - u64) ^ length l <= B2R s <= (B2R acc + rsum l) * (1 + u64) ^ length l).
Proof.
  pose proof u64_small as HU.
  induction 1 as [|x l Hx Hl IH]; intros acc Ha; cbn [fold_left length].
  - right. cbn. split; [exact Ha|]. split; [lra|]. split; [constructor|lra].
  - cbv zeta. destruct (is_finite (Bplus mode_NE acc x)) eqn:F1.
    + destruct (add_bounds acc x Ha Hx F1) as (P1 & L1 & L2 & L3 & L4).
      destruct (IH _ P1) as [E|(P & La & Lall & Lo & Hi)]; [left; exact E|right].
      split; [exact P|]. split; [lra|]. split; [constructor; [lra|exact Lall]|].
      pose proof (rsum_nonneg l Hl) as Hs. destruct Ha as [_ Ha], Hx as [_ Hx]. cbn [pow].
      change (rsum (x :: l)) with (B2R x + rsum l).
      assert (Q1 : 0 <= (1 - u64) ^ length l) by (apply pow_le; lra). assert (Q2 : 0 <= (1 + u64) ^ length l) by (apply pow_le; lra).
      split.
      * eapply Rle_trans; [|exact Lo]. rewrite <- Rmult_assoc. apply Rmult_le_compat_r; [exact Q1|]. nra.
      * eapply Rle_trans; [exact Hi|]. rewrite <- Rmult_assoc. apply Rmult_le_compat_r; [exact Q2|]. nra.
    + left. assert (E : Bplus mode_NE acc x = B754_infinity false).
      { pose proof (add_nn acc x) as K. destruct Ha as [Fa La], Hx as [Fx Lx]. specialize (K (nn_fin _ Fa La) (nn_fin _ Fx Lx)).
        destruct (nn_cases _ K) as [E|[E _]]; [exact E|congruence]. }
      rewrite E. apply inf_sum, Hl.
Qed.

(** a rounded number, also in the subnormal range *)
Definition tiny : R := bpow radix2 (-1075).
Lemma rd_lower x : 0 <= x -> x * (1 - u64) - tiny <= rd x.
Proof.
  intro Hx. destruct (Rle_or_lt (bpow radix2 (-1022)) x) as [H|H].
  - pose proof (rd_bounds x H). pose proof (bpow_gt_0 radix2 (-1075)). unfold tiny. lra.
  - pose proof (error_le_half_ulp radix2 (FLT_exp (-1074) 53) (fun z => negb (Z.even z)) x) as K.
    change (round radix2 (FLT_exp (-1074) 53) (Znearest (fun z : Z => negb (Z.even z))) x) with (rd x) in K.
    rewrite ulp_FLT_small in K.
    + replace (/ 2 * bpow radix2 (-1074)) with tiny in K.
      * apply Rabs_le_inv in K. pose proof u64_small. assert (0 <= x * u64) by (apply Rmult_le_pos; lra). lra.
      * unfold tiny. replace (-1075)%Z with (-1 + -1074)%Z by lia. rewrite bpow_plus. f_equal.
    + reflexivity.
    + rewrite Rabs_pos_eq by exact Hx. eapply Rlt_trans; [exact H|]. apply bpow_lt. lia.
Qed.
Lemma quotient (d s : f64) : plain_number d -> plain_number s -> B2R d <= B2R s -> 0 < B2R s ->
  plain_number (Bdiv mode_NE d s) /\ B2R d / B2R s * (1 - u64) - tiny <= B2R (Bdiv mode_NE d s).
Proof.
  intros [Fd Ld] [Fs Ls] H H0.
  assert (Q : 0 <= B2R d / B2R s <= 1).
  { split; [apply Rmult_le_pos; [exact Ld|apply Rlt_le, Rinv_0_lt_compat, H0]|].
    apply Rmult_le_reg_r with (B2R s); [exact H0|]. unfold Rdiv. rewrite Rmult_assoc, Rinv_l by lra. lra. }
  destruct (div_ok d s Fd) as [F1 E1].
  - lra.
  - apply no_overflow_bpow with 0%Z; [lia|]. rewrite Rabs_pos_eq by lra. cbn. lra.
  - split; [split; [exact F1|]|]; rewrite E1.
    + apply rd_nonneg; lra.
    + apply rd_lower; lra.
Qed.
Lemma quotients ds (s : f64) : Forall plain_number ds -> plain_number s -> Forall (fun d => B2R d <= B2R s) ds -> 0 < B2R s ->
  Forall plain_number (map (fun d => Bdiv mode_NE d s) ds) /\
  rsum ds / B2R s * (1 - u64) - INR (length ds) * tiny <= rsum (map (fun d => Bdiv mode_NE d s) ds).
Proof.
  intros Hd Hs Hle H0. induction ds as [|d ds IH].
  - split; [constructor|]. change (rsum []) with 0. change (rsum (map _ [])) with 0. change (INR (length [])) with 0. unfold Rdiv. rewrite !Rmult_0_l. lra.
  - inversion Hd; inversion Hle; subst. destruct (IH ltac:(assumption) ltac:(assumption)) as [IH1 IH2].
    destruct (quotient d s) as [Q1 Q2]; try assumption. cbn [map]. split; [constructor; assumption|].
    change (rsum (d :: ds)) with (B2R d + rsum ds). cbn [length]. rewrite S_INR.
    change (rsum (Bdiv mode_NE d s :: map (fun d => Bdiv mode_NE d s) ds)) with (B2R (Bdiv mode_NE d s) + rsum (map (fun d => Bdiv mode_NE d s) ds)).
    unfold Rdiv in *. rewrite Rmult_plus_distr_r. lra.
Qed.
Lemma bernoulli n : 1 - INR n * u64 <= (1 - u64) ^ n.
Proof.
  pose proof u64_small. induction n as [|n IH]; [cbn; lra|]. rewrite S_INR. cbn [pow].
  assert ((1 - u64) * (1 - INR n * u64) <= (1 - u64) * (1 - u64) ^ n) by (apply Rmult_le_compat_l; lra).
  assert (0 <= INR n) by apply pos_INR. nra.
Qed.
Lemma inverse_pow n : (1 - u64) ^ n * (1 + u64) ^ n <= 1.
Proof.
  pose proof u64_small. rewrite <- Rpow_mult_distr.
  eapply Rle_trans; [apply (pow_incr _ 1); split; nra|rewrite pow1; lra].
Qed.
(** the rounded shares of a rounded total add up, rounded, almost to 1 *)
Lemma shares_sum ds : Forall plain_number ds -> (INR (length ds) <= bpow radix2 20) ->
  let s := fold_left (Bplus mode_NE) ds b0 in plain_number s -> 0 < B2R s ->
  let cs := map (fun d => Bdiv mode_NE d s) ds in
  let t := fold_left (Bplus mode_NE) cs b0 in
  Forall plain_number cs /\
  (t = B754_infinity false \/ (fin t /\ 1 - (INR (length ds) + 1) * bpow radix2 (-52) <= B2R t)).
Proof.
  intros Hd Hn s Hs H0 cs t. pose proof u64_small as HU.
  assert (P0 : plain_number b0) by (split; [reflexivity|cbn; lra]).
  destruct (sum_bounds ds Hd b0 P0) as [E|(_ & _ & HA & _ & Hi)].
  { fold s in E. destruct Hs as [F1 _]. rewrite E in F1. discriminate F1. }
  fold s in HA, Hi. replace (B2R b0 + rsum ds) with (rsum ds) in Hi by (cbn; ring).
  destruct (quotients ds s Hd Hs HA H0) as [C1 C2]. fold cs in C1, C2. split; [exact C1|].
  destruct (sum_bounds cs C1 b0 P0) as [E|(Pt & _ & _ & Lo & _)]; [left; exact E|right].
  fold t in Pt, Lo. split; [apply Pt|]. replace (B2R b0 + rsum cs) with (rsum cs) in Lo by (cbn; ring).
  assert (Len : length cs = length ds) by (unfold cs; apply map_length). 
  assert (Len' : @length f64 cs = length ds) by exact Len. rewrite ?Len, ?Len' in Lo.
  set (n := length ds) in *. set (a := (1 - u64) ^ n) in *. set (b := (1 + u64) ^ n) in *.
  assert (Ha : 0 < a <= 1). { split; [apply pow_lt; lra|]. unfold a. eapply Rle_trans; [apply (pow_incr _ 1); lra|rewrite pow1; lra]. }
  assert (Hb : 0 < b) by (apply pow_lt; lra). pose proof (inverse_pow n) as Hab. fold a b in Hab.
  assert (Q : a <= rsum ds / B2R s).
  { apply Rmult_le_reg_r with (B2R s); [exact H0|]. unfold Rdiv. rewrite Rmult_assoc, Rinv_l by lra. rewrite Rmult_1_r.
    eapply Rle_trans; [apply Rmult_le_compat_l; [lra|exact Hi]|].
    replace (a * (rsum ds * b)) with (rsum ds * (a * b)) by ring. rewrite <- (Rmult_1_r (rsum ds)) at 2.
    apply Rmult_le_compat_l; [apply rsum_nonneg, Hd|exact Hab]. }
  assert (Hc : a * (1 - u64) - INR n * tiny <= rsum cs).
  { eapply Rle_trans; [|exact C2]. apply Rplus_le_compat_r. apply Rmult_le_compat_r; lra. }
  assert (HT : 0 <= INR n * tiny <= u64).
  { unfold tiny. split; [apply Rmult_le_pos; [apply pos_INR|apply bpow_ge_0]|].
    eapply Rle_trans; [apply Rmult_le_compat_r; [apply bpow_ge_0|exact Hn]|]. rewrite <- bpow_plus. apply bpow_le. lia. }
  pose proof (bernoulli n) as B1. fold a in B1.
  assert (Hu2 : bpow radix2 (-52) = 2 * u64).
  { unfold u64. replace (-52)%Z with (1 + -53)%Z by lia. rewrite bpow_plus. f_equal. }
  rewrite Hu2. eapply Rle_trans; [|exact Lo].
  eapply Rle_trans; [|apply Rmult_le_compat_r; [lra|exact Hc]].
  assert (Hn0 : 0 <= INR n) by apply pos_INR.
  assert (A2 : 1 - 2 * INR n * u64 <= a * a).
  { pose proof (bernoulli (n + n)) as B2. rewrite pow_add, plus_INR in B2. fold a in B2. lra. }
  assert (A3 : a * a <= 1) by nra. nra.
Qed.

(** ** the species *)
Section Choose64.
  Context (lm : LibmB).
  #[local] Instance NBc : Num f64 := NumB lm.
  Lemma choose_index_last (r : f64) k (cum : list f64) (last : f64) : In last cum -> Bltb r last = true -> exists i, choose_index r k cum = Some i /\ (i < k + length cum)%nat.
  Proof.
    revert k. induction cum as [|c cum IH]; intros k [].
    - subst c. intro H. exists k. cbn [choose_index length]. change (@nlt f64 NBc r last) with (Bltb r last). rewrite H. split; [reflexivity|lia].
    - intro Hl. cbn [choose_index length]. destruct (nlt r c); [exists k; split; [reflexivity|lia]|].
      destruct (IH (S k) H Hl) as (i & Hi & L). exists i. split; [exact Hi|lia].
  Qed.
  Lemma cumulative_last cs acc : cs <> [] -> In (fold_left (Bplus mode_NE) cs acc) (cumulative_from acc cs).
  Proof.
    revert acc. induction cs as [|c cs IH]; intros acc H; [contradiction|]. cbn [cumulative_from fold_left].
    destruct cs as [|c' cs]; [left; reflexivity|]. right. apply IH. discriminate.
  Qed.
  Lemma cumulative_length cs acc : length (cumulative_from acc cs) = length cs.
  Proof. revert acc. induction cs as [|c cs IH]; intros acc; [reflexivity|]. cbn. now rewrite IH. Qed.
  Lemma zero64 : @nZ f64 NBc 0 = b0.
  Proof. apply B2SF_inj. change (@nZ f64 NBc 0) with (of_sf (sf_lit 0 0)). rewrite of_sf_valid; reflexivity. Qed.
  Lemma choose_ok (mat : Material f64) r x y z cs last :
    g_get_concentrations (mat_geometry mat) x y z = Ok cs -> cs <> [] ->
    Forall (fun l => (length cs <= l)%nat) [length (mat_Z mat); length (mat_m mat); length (mat_Ec mat); length (mat_Es mat); length (mat_Ed mat); length (mat_interaction_index mat)] ->
    last = fold_left (Bplus mode_NE) cs b0 -> Bltb r last = true ->
    exists s, choose_with mat r x y z = Ok s /\ (s_index s < length cs)%nat.
  Proof.
    intros Hc Hn HL -> Hr. unfold choose_with, get_cumulative_concentrations. rewrite Hc. cbn [bind]. rewrite zero64.
    destruct (choose_index_last r 0 (cumulative_from b0 cs) _ (cumulative_last cs b0 Hn) Hr) as (i & Hi & L).
    rewrite cumulative_length in L. cbn [Nat.add] in L. rewrite Hi.
    assert (I : forall A (l : list A), (length cs <= length l)%nat -> exists a, idx l i = Ok a).
    { intros A l Hl. unfold idx. destruct (nth_error l i) eqn:E; [eauto|]. apply nth_error_None in E. lia. }
    rewrite Forall_forall in HL.
    destruct (I _ (mat_Z mat)) as [v1 ->]; [apply HL; cbn; tauto|]. destruct (I _ (mat_m mat)) as [v2 ->]; [apply HL; cbn; tauto|].
    destruct (I _ (mat_Ec mat)) as [v3 ->]; [apply HL; cbn; tauto|]. destruct (I _ (mat_Es mat)) as [v4 ->]; [apply HL; cbn; tauto|].
    destruct (I _ (mat_Ed mat)) as [v5 ->]; [apply HL; cbn; tauto|]. destruct (I _ (mat_interaction_index mat)) as [v6 ->]; [apply HL; cbn; tauto|].
    cbn [bind]. eexists. split; [reflexivity|exact L].
  Qed.
End Choose64.
