(** * ProofsSeq.v - list interfaces treat their ions one after the other *)
From Coq Require Import ZArith List Bool Lia.
From Verif Require Import Num ModelTypes ModelConsts ModelParticle ModelGeometry ModelMaterial ModelBca ModelInput ModelLib.
From Verif Require Import Spec SpecLib SpecTwo ProofsBase ProofsLib.
Import ListNotations.
Open Scope nat_scope.

Section Seq.
  Context {F : Type} {NF : Num F}.
  (** equality of computations, run by run *)
  Definition same_run {A} (a b : M F A) : Prop := forall rng n, a rng n = b rng n.
  Lemma sr_refl {A} (a : M F A) : same_run a a. Proof. intros rng n. reflexivity. Qed.
  Lemma sr_trans {A} (a b c : M F A) : same_run a b -> same_run b c -> same_run a c.
  Proof. intros H K rng n. rewrite H. apply K. Qed.
  Lemma sr_bind {A B} (a a' : M F A) (f f' : A -> M F B) :
    same_run a a' -> (forall x, same_run (f x) (f' x)) -> same_run (mbind a f) (mbind a' f').
  Proof. intros H K rng n. unfold mbind. rewrite H. destruct (a' rng n) as [[x k]|k|]; auto. apply K. Qed.
  Lemma sr_assoc {A B C} (a : M F A) (f : A -> M F B) (g : B -> M F C) :
    same_run (mbind (mbind a f) g) (mbind a (fun x => mbind (f x) g)).
  Proof. intros rng n. unfold mbind. destruct (a rng n) as [[x k]|k|]; auto. Qed.
  Lemma oao_bind {A} (a b : M F A) j : same_run (one_after_the_other a b j) (mbind a (fun x => mbind b (fun y => mret (j x y)))).
  Proof. intros rng n. unfold one_after_the_other, mbind, mret. destruct (a rng n) as [[x k]|k|]; auto. Qed.
  Lemma oao_congr {A} (a a' b b' : M F A) j : same_run a a' -> same_run b b' ->
    same_run (one_after_the_other a b j) (one_after_the_other a' b' j).
  Proof. intros H K rng n. unfold one_after_the_other. rewrite H. destruct (a' rng n) as [[x k]|k|]; auto. rewrite K. reflexivity. Qed.
  (** a result post-processed *)
  Lemma oao_map {A B} (a b : M F A) j (g : A -> B) j' : (forall x y, g (j x y) = j' (g x) (g y)) ->
    same_run (mbind (one_after_the_other a b j) (fun x => mret (g x)))
             (one_after_the_other (mbind a (fun x => mret (g x))) (mbind b (fun x => mret (g x))) j').
  Proof.
    intros H rng n. unfold one_after_the_other, mbind, mret. destruct (a rng n) as [[x k]|k|]; auto.
    destruct (b rng k) as [[y k']|k'|]; auto. rewrite H. reflexivity.
  Qed.
  (** a deterministic prefix (checking arguments, building the target) *)
  Lemma oao_lift {A B} (r : Res A) (f g h : A -> M F B) j :
    (forall x, r = Ok x -> same_run (f x) (one_after_the_other (g x) (h x) j)) ->
    same_run (mbind (mlift r) f) (one_after_the_other (mbind (mlift r) g) (mbind (mlift r) h) j).
  Proof.
    intros H rng n. unfold mbind, mlift, one_after_the_other. destruct r as [x|k|]; auto.
    rewrite (H x eq_refl). unfold one_after_the_other. reflexivity.
  Qed.

  Lemma run_all_app build mat options fuel (ps qs : list (Particle F)) :
    same_run (run_all build mat options fuel (ps ++ qs))
             (one_after_the_other (run_all build mat options fuel ps) (run_all build mat options fuel qs) (@app _)).
  Proof.
    induction ps as [|p ps IH]; intros rng n; cbn [run_all app].
    - unfold one_after_the_other, mret. destruct (run_all build mat options fuel qs rng n) as [[y k]|k|]; reflexivity.
    - unfold mbind, one_after_the_other, mret. destruct (single_ion_bca _ _ _ _ _ _ _) as [[x k]|k|]; auto.
      rewrite IH. unfold one_after_the_other. destruct (run_all build mat options fuel ps rng k) as [[y k1]|k1|]; auto.
      destruct (run_all build mat options fuel qs rng k1) as [[z k2]|k2|]; auto. rewrite app_assoc. reflexivity.
  Qed.
  Lemma py_loop_app build mat options fuel x (ps qs : list (PyIon F)) :
    same_run (py_loop build mat options fuel x (ps ++ qs))
             (one_after_the_other (py_loop build mat options fuel x ps) (py_loop build mat options fuel x qs) (@app _)).
  Proof.
    induction ps as [|p ps IH]; intros rng n; cbn [py_loop app].
    - unfold one_after_the_other, mret. destruct (py_loop build mat options fuel x qs rng n) as [[y k]|k|]; reflexivity.
    - unfold mbind, one_after_the_other, mret. destruct (mlift _ _ _) as [[p1 k0]|k|]; auto.
      destruct (single_ion_bca _ _ _ _ _ _ _) as [[x1 k]|k|]; auto.
      rewrite IH. unfold one_after_the_other. destruct (py_loop build mat options fuel x ps rng k) as [[y k1]|k1|]; auto.
      destruct (py_loop build mat options fuel x qs rng k1) as [[z k2]|k2|]; auto. rewrite app_assoc. reflexivity.
  Qed.
  Lemma simple_loop_app (one : F * Vector F -> M F (list (list F))) ps qs :
    same_run (simple_bca_list_loop one (ps ++ qs))
             (one_after_the_other (simple_bca_list_loop one ps) (simple_bca_list_loop one qs) (@app _)).
  Proof.
    induction ps as [|p ps IH]; intros rng n; cbn [simple_bca_list_loop app].
    - unfold one_after_the_other, mret. destruct (simple_bca_list_loop one qs rng n) as [[y k]|k|]; reflexivity.
    - unfold mbind, one_after_the_other, mret. destruct (one p rng n) as [[x1 k]|k|]; auto.
      rewrite IH. unfold one_after_the_other. destruct (simple_bca_list_loop one ps rng k) as [[y k1]|k1|]; auto.
      destruct (simple_bca_list_loop one qs rng k1) as [[z k2]|k2|]; auto. rewrite app_assoc. reflexivity.
  Qed.
  (** the tagged loop: an index into the whole arrays, or into the later parts *)
  Lemma tagged_loop_shift build mat options fuel (a b : InputTagged F) x k vs : forall j,
    it_Z1 a = it_Z1 b -> it_m1 a = it_m1 b -> it_Ec1 a = it_Ec1 b -> it_Es1 a = it_Es1 b ->
    it_weights b = skipn k (it_weights a) -> it_tags b = skipn k (it_tags a) -> it_positions b = skipn k (it_positions a) ->
    same_run (tagged_loop build mat options fuel a x (k + j) vs) (tagged_loop build mat options fuel b x j vs).
  Proof.
    assert (HI : forall A (l : list A) j, idx (skipn k l) j = idx l (k + j)).
    { intros A l j. unfold idx. replace (nth_error (skipn k l) j) with (nth_error l (k + j)); [reflexivity|].
      revert l. induction k as [|k IH]; intros l; [reflexivity|]. destruct l as [|y l]; [destruct j; reflexivity|]. apply IH. }
    induction vs as [|v vs IH]; intros j E1 E2 E3 E4 L1 L2 L3; cbn [tagged_loop]; [apply sr_refl|].
    assert (HT : tagged_ion a x (k + j) v = tagged_ion b x j v).
    { unfold tagged_ion. rewrite L1, L2, L3, !HI, E1, E2, E3, E4. reflexivity. }
    rewrite HT. apply sr_bind; [apply sr_refl|]. intros p. apply sr_bind; [apply sr_refl|]. intros out.
    apply sr_bind; [|intros ?; apply sr_refl]. replace (S (k + j)) with (k + S j) by lia. apply IH; auto.
  Qed.
  Lemma tagged_loop_app build mat options fuel (a : InputTagged F) x vs ws : forall j,
    same_run (tagged_loop build mat options fuel a x j (vs ++ ws))
             (one_after_the_other (tagged_loop build mat options fuel a x j vs)
                                  (tagged_loop build mat options fuel a x (length vs + j) ws) (@app _)).
  Proof.
    induction vs as [|v vs IH]; intros j rng n; cbn [tagged_loop app length plus].
    - unfold one_after_the_other, mret. destruct (tagged_loop _ _ _ _ _ _ _ _ rng n) as [[y k]|k|]; reflexivity.
    - unfold mbind, one_after_the_other, mret. destruct (mlift _ _ _) as [[p k0]|k|]; auto.
      destruct (single_ion_bca _ _ _ _ _ _ _) as [[x1 k]|k|]; auto.
      rewrite IH. unfold one_after_the_other. destruct (tagged_loop build mat options fuel a x (S j) vs rng k) as [[y k1]|k1|]; auto.
      replace (length vs + S j) with (S (length vs + j)) by lia.
      destruct (tagged_loop build mat options fuel a x (S (length vs + j)) ws rng k1) as [[z k2]|k2|]; auto. rewrite app_assoc. reflexivity.
  Qed.
  (** tags, weights and positions of the first ions are read from the first parts *)
  Lemma tagged_loop_prefix build mat options fuel (a b : InputTagged F) x k vs : forall j,
    it_Z1 a = it_Z1 b -> it_m1 a = it_m1 b -> it_Ec1 a = it_Ec1 b -> it_Es1 a = it_Es1 b ->
    it_weights b = firstn k (it_weights a) -> it_tags b = firstn k (it_tags a) -> it_positions b = firstn k (it_positions a) ->
    length vs + j <= k ->
    same_run (tagged_loop build mat options fuel a x j vs) (tagged_loop build mat options fuel b x j vs).
  Proof.
    assert (HI : forall A (l : list A) j, j < k -> idx (firstn k l) j = idx l j).
    { intros A l j Hj. unfold idx. replace (nth_error (firstn k l) j) with (nth_error l j); [reflexivity|].
      revert l j Hj. induction k as [|k IH]; intros l j Hj; [lia|]. destruct l as [|y l]; [reflexivity|]. destruct j; [reflexivity|]. apply (IH l j). lia. }
    induction vs as [|v vs IH]; intros j E1 E2 E3 E4 L1 L2 L3 HL; cbn [tagged_loop]; [apply sr_refl|]. cbn [length] in HL.
    assert (HT : tagged_ion a x j v = tagged_ion b x j v).
    { unfold tagged_ion. rewrite L1, L2, L3, !HI, E1, E2, E3, E4 by lia. reflexivity. }
    rewrite HT. apply sr_bind; [apply sr_refl|]. intros p. apply sr_bind; [apply sr_refl|]. intros out.
    apply sr_bind; [|intros ?; apply sr_refl]. apply IH; auto. lia.
  Qed.
End Seq.
