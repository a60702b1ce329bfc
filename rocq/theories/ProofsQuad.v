(** * ProofsQuad.v - the five-point Gauss-Legendre rule *)
From Coquelicot Require Import Coquelicot.
From Coq Require Import ZArith List Bool Lia Reals Lra Machin.
From Verif Require Import Num ModelTypes ModelConsts ModelInteractions ModelBca ProofsBase NumR SpecR SpecCollision SpecRoots
  ProofsInteractions ProofsNewton ProofsCollision.
Import ListNotations.
Open Scope R_scope.

Definition gl_h (p E r0 : R) (v : R -> R) (u : R) : R :=
  4 * p * u / (r0 * sqrt (1 - v (r0 / (1 - u * u)) / E - p * p * ((1 - u * u) * (1 - u * u)) / r0 / r0)).
Definition rule (h : R -> R) : R :=
  568889 / 2000000 * h (1 / 2) + (478629 / 2000000 * h (461531 / 2000000) + (478629 / 2000000 * h (1538469 / 2000000)
  + (236927 / 2000000 * h (9382 / 200000) + 236927 / 2000000 * h (190618 / 200000)))).
Lemma gl_nodes_R : (gl_nodes : list R) = [1 / 2; 461531 / 2000000; 1538469 / 2000000; 9382 / 200000; 190618 / 200000].
Proof.
  unfold gl_nodes. cbn [map]. toR. rewrite !nlit_neg. change (10 ^ 6)%Z with 1000000%Z. change (10 ^ 5)%Z with 100000%Z.
  repeat (apply (f_equal2 (@cons R)); [lra|]). reflexivity.
Qed.
Lemma gl_weights_R : (gl_weights : list R) = [568889 / 2000000; 478629 / 2000000; 478629 / 2000000; 236927 / 2000000; 236927 / 2000000].
Proof.
  unfold gl_weights. cbn [map]. toR. rewrite !nlit_neg. change (10 ^ 6)%Z with 1000000%Z.
  repeat (apply (f_equal2 (@cons R)); [lra|]). reflexivity.
Qed.
Lemma gl_fun p E r0 V s :
  (forall u, scattering_function_gl u p r0 E V = Ok (s u)) -> scattering_integral_gauss_legendre p E r0 V = Ok (PI - rule s).
Proof.
  intros H. unfold scattering_integral_gauss_legendre. rewrite gl_nodes_R, gl_weights_R. unfold zip. cbn [combine mapM fst snd].
  rewrite !H. cbn [bind]. rewrite nsum_R. cbn [Rsum]. f_equal. unfold rule. toR. cbn [fold_right]. ring.
Qed.

(** ** polynomials *)
Fixpoint moments (k : nat) (cs : list R) : R :=
  match cs with [] => 0 | c :: cs => c / INR (S k) + moments (S k) cs end.
Lemma power_integral c k : is_RInt (fun u => u ^ k * c) 0 1 (c / INR (S k)).
Proof.
  assert (Hk : INR (S k) <> 0) by (apply not_0_INR; discriminate).
  replace (c / INR (S k)) with (minus (1 ^ S k * c / INR (S k)) (0 ^ S k * c / INR (S k))).
  2: { unfold minus, plus, opp. cbn -[INR pow]. rewrite pow1. rewrite pow_i by lia. field. exact Hk. }
  apply (is_RInt_derive (fun u => u ^ S k * c / INR (S k)) (fun u => u ^ k * c)).
  - intros x _. auto_derive; [exact I|]. cbn [Init.Nat.pred]. field. exact Hk.
  - intros x _. apply (ex_derive_continuous (fun u => u ^ k * c)). auto_derive. exact I.
Qed.
Lemma polynomial_integral cs : forall k, is_RInt (fun u => u ^ k * value_at u cs) 0 1 (moments k cs).
Proof.
  induction cs as [|c cs IH]; intros k; cbn [value_at fold_right moments].
  - apply (is_RInt_ext (fun _ => 0)); [intros x _; symmetry; apply Rmult_0_r|].
    pose proof (@is_RInt_const R_NormedModule 0 1 0) as H. unfold scal in H. cbn in H. unfold mult in H. cbn in H.
    rewrite Rmult_0_r in H. exact H.
  - apply (is_RInt_ext (fun u => plus (u ^ k * c) (u ^ S k * value_at u cs))).
    + intros x _. change (x ^ k * c + x * x ^ k * value_at x cs = x ^ k * (c + x * value_at x cs)). ring.
    + apply @is_RInt_plus; [apply power_integral|apply IH].
Qed.
Lemma rule_plus f g : rule (fun u => f u + g u) = rule f + rule g.
Proof. unfold rule. ring. Qed.
Lemma rule_scal c f : rule (fun u => f u * c) = rule f * c.
Proof. unfold rule. ring. Qed.
Lemma rule_ext f g : (forall u, f u = g u) -> rule f = rule g.
Proof. intros H. unfold rule. rewrite !H. reflexivity. Qed.
Lemma rule_power k : (k <= 9)%nat -> Rabs (rule (fun u => u ^ k) - / INR (S k)) <= 1 / 1000000.
Proof.
  intros Hk. assert (Hd : INR (S k) <> 0) by (apply not_0_INR; discriminate). revert Hd.
  do 10 (destruct k as [|k]; [intros _; unfold rule; cbn [INR pow]; apply Rabs_le; lra|apply le_S_n in Hk || lia]).
  all: exfalso; lia.
Qed.
Lemma rule_polynomial cs : forall k, (k + length cs <= 10)%nat ->
  Rabs (rule (fun u => u ^ k * value_at u cs) - moments k cs) <= 1 / 1000000 * magnitude cs.
Proof.
  induction cs as [|c cs IH]; intros k Hk; cbn [moments magnitude fold_right length] in *.
  - rewrite (rule_ext _ (fun _ => 0)) by (intros; cbn; ring). unfold rule. rewrite !Rmult_0_r, !Rplus_0_r, Rminus_0_r, Rabs_R0. lra.
  - rewrite (rule_ext _ (fun u => u ^ k * c + u ^ S k * value_at u cs)) by (intros; cbn [pow value_at fold_right]; unfold value_at; ring).
    rewrite rule_plus, rule_scal. unfold Rdiv at 1.
    replace (rule (fun u => u ^ k) * c + rule (fun u => u ^ S k * value_at u cs) - (c * / INR (S k) + moments (S k) cs))
      with ((rule (fun u => u ^ k) - / INR (S k)) * c + (rule (fun u => u ^ S k * value_at u cs) - moments (S k) cs)) by ring.
    eapply Rle_trans; [apply Rabs_triang|]. rewrite Rabs_mult.
    specialize (IH (S k) ltac:(lia)). pose proof (rule_power k ltac:(lia)) as Hp.
    pose proof (Rmult_le_compat_r (Rabs c) _ _ (Rabs_pos c) Hp). fold (magnitude cs). lra.
Qed.

(** ** no potential *)
Lemma PI_bounds : 31415926 / 10000000 <= PI <= 31415927 / 10000000.
Proof.
  destruct (PI_2_3_7_ineq 4) as (H1 & H2). cbn [Nat.mul Nat.add sum_f_R0] in H1, H2.
  unfold tg_alt, PI_2_3_7_tg, Ratan_seq in H1, H2. cbn [Nat.mul Nat.add pow INR] in H1, H2. lra.
Qed.
Lemma recip_root x s : 0 < s -> s * s <= x <= (s + 1 / 1000000000) * (s + 1 / 1000000000) ->
  / (s + 1 / 1000000000) <= / sqrt x <= / s.
Proof.
  intros Hs (H1 & H2). assert (s <= sqrt x) by (rewrite <- (sqrt_square s) by lra; apply sqrt_le_1_alt; exact H1).
  assert (sqrt x <= s + 1 / 1000000000) by (rewrite <- (sqrt_square (s + 1 / 1000000000)) by lra; apply sqrt_le_1_alt; exact H2).
  split; apply Rinv_le_contravar; lra.
Qed.
Lemma rule_no_potential : Rabs (PI - rule (fun u => 4 * / sqrt (2 - u * u))) <= 3 / 1000000.
Proof.
  unfold rule. pose proof PI_bounds.
  pose proof (recip_root (2 - 1 / 2 * (1 / 2)) (1322875655 / 1000000000) ltac:(lra) ltac:(lra)) as A1.
  pose proof (recip_root (2 - 461531 / 2000000 * (461531 / 2000000)) (1395258859 / 1000000000) ltac:(lra) ltac:(lra)) as A2.
  pose proof (recip_root (2 - 1538469 / 2000000 * (1538469 / 2000000)) (1186709014 / 1000000000) ltac:(lra) ltac:(lra)) as A3.
  pose proof (recip_root (2 - 9382 / 200000 * (9382 / 200000)) (1413435337 / 1000000000) ltac:(lra) ltac:(lra)) as A4.
  pose proof (recip_root (2 - 190618 / 200000 * (190618 / 200000)) (1044805939 / 1000000000) ltac:(lra) ltac:(lra)) as A5.
  repeat match goal with |- context [/ sqrt ?x] => set (/ sqrt x) in * end.
  clearbody r r0 r1 r2 r3. apply Rabs_le. lra.
Qed.
Lemma gl_no_potential p E : 0 < p -> exists th, scattering_integral_gauss_legendre p E p (fun _ => Ok 0) = Ok th /\ Rabs th <= 3 / 1000000.
Proof.
  intros Hp.
  set (s := fun u => 4 * p * u / (p * sqrt (1 - 0 / E - p * p * powerRZ (1 - u * u) 2 / p / p))).
  assert (Hs : forall u, scattering_function_gl u p p E (fun _ => Ok 0) = Ok (s u)).
  { intros u. unfold scattering_function_gl. cbn [bind]. change (nis_nan _) with false. cbv iota. f_equal. unfold s. toR. reflexivity. }
  exists (PI - rule s). split; [apply gl_fun; exact Hs|].
  assert (Hu : forall u, 0 < u < 1 -> s u = 4 * / sqrt (2 - u * u)).
  { intros u Hu. unfold s. replace (1 - 0 / E - p * p * powerRZ (1 - u * u) 2 / p / p) with (u * u * (2 - u * u)).
    2: { cbn [powerRZ Pos.to_nat Pos.iter_op pow]. unfold Rdiv. rewrite Rmult_0_l. simpl. field. lra. }
    assert (0 < u * u) by (apply Rmult_lt_0_compat; lra). assert (u * u < 1 * 1) by (apply Rmult_gt_0_lt_compat; lra).
    rewrite sqrt_mult by lra. rewrite sqrt_square by lra. assert (0 < sqrt (2 - u * u)) by (apply sqrt_lt_R0; lra). field. lra. }
  replace (rule s) with (rule (fun u => 4 * / sqrt (2 - u * u))); [apply rule_no_potential|].
  unfold rule. rewrite !Hu by lra. reflexivity.
Qed.
