(** * ProofsBase.v - inversion lemmas and tactics for results and the random monad *)
From Coq Require Import ZArith List Bool Lia.
From Verif Require Import Num.
Import ListNotations.

Lemma bind_ok {A B} (m : Res A) (f : A -> Res B) b :
  bind m f = Ok b -> exists a, m = Ok a /\ f a = Ok b.
Proof. destruct m as [a|k|]; simpl; intros H; try discriminate. exists a. auto. Qed.

Lemma mbind_ok {F A B} (m : M F A) (f : A -> M F B) rng n b n' :
  mbind m f rng n = Ok (b, n') ->
  exists a n1, m rng n = Ok (a, n1) /\ f a rng n1 = Ok (b, n').
Proof.
  unfold mbind. destruct (m rng n) as [[a n1]|k|] eqn:E; intros H; try discriminate.
  exists a, n1. auto.
Qed.

Lemma mlift_ok {F A} (r : Res A) (rng : Rng F) n a n' :
  mlift r rng n = Ok (a, n') -> r = Ok a /\ n' = n.
Proof. unfold mlift. destruct r; intros H; try discriminate. injection H; intros; subst; auto. Qed.

Lemma mret_ok {F A} (x : A) (rng : Rng F) n a n' :
  mret x rng n = Ok (a, n') -> a = x /\ n' = n.
Proof. unfold mret. intros H. injection H; intros; subst; auto. Qed.

Lemma mrandom_ok {F} (rng : Rng F) n a n' :
  mrandom rng n = Ok (a, n') -> a = rng n /\ n' = S n.
Proof. unfold mrandom. intros H. injection H; intros; subst; auto. Qed.

Lemma rassert_ok b u : rassert b = Ok u -> b = true.
Proof. unfold rassert. destruct b; intros H; [reflexivity|discriminate]. Qed.

Lemma idx_ok {A} (l : list A) i a : idx l i = Ok a -> nth_error l i = Some a.
Proof. unfold idx. destruct (nth_error l i); intros H; [injection H; intros; subst; reflexivity|discriminate]. Qed.

Lemma idx_lt {A} (l : list A) i : i < length l -> exists a, idx l i = Ok a.
Proof.
  intros H. unfold idx. destruct (nth_error l i) eqn:E; [eauto|].
  apply nth_error_None in E. lia.
Qed.

Lemma idx_panic {A} (l : list A) i k : idx l i = Panic k -> k = IndexOOB /\ length l <= i.
Proof.
  unfold idx. destruct (nth_error l i) eqn:E; intros H; [discriminate|].
  injection H; intros; subst. split; [reflexivity|]. apply nth_error_None. exact E.
Qed.

Lemma mapM_ok {A B} (f : A -> Res B) l bs :
  mapM f l = Ok bs -> Forall2 (fun a b => f a = Ok b) l bs.
Proof.
  revert bs. induction l as [|a l IH]; simpl; intros bs H.
  - injection H; intros; subst. constructor.
  - apply bind_ok in H. destruct H as (b & Hb & H).
    apply bind_ok in H. destruct H as (bs' & Hbs & H).
    injection H; intros; subst. constructor; auto.
Qed.

Lemma Forall2_mapM {A B} (f : A -> Res B) l bs :
  Forall2 (fun a b => f a = Ok b) l bs -> mapM f l = Ok bs.
Proof.
  induction 1 as [|a b l bs Hab _ IH]; simpl; [reflexivity|].
  rewrite Hab. simpl. rewrite IH. reflexivity.
Qed.

Lemma mapM_app {A B} (f : A -> Res B) l1 l2 :
  mapM f (l1 ++ l2) = (let! a := mapM f l1 in let! b := mapM f l2 in Ok (a ++ b)).
Proof.
  induction l1 as [|a l1 IH]; simpl.
  - destruct (mapM f l2); reflexivity.
  - destruct (f a); simpl; try reflexivity. rewrite IH.
    destruct (mapM f l1); simpl; try reflexivity.
    destruct (mapM f l2); reflexivity.
Qed.

Lemma mrandoms_ok {F} k (rng : Rng F) n rs n' :
  mrandoms k rng n = Ok (rs, n') -> rs = map rng (seq n k) /\ n' = n + k.
Proof.
  revert n rs n'. induction k as [|k IH]; simpl; intros n rs n' H.
  - apply mret_ok in H. destruct H; subst. split; [reflexivity|lia].
  - apply mbind_ok in H. destruct H as (r & n1 & H1 & H).
    apply mrandom_ok in H1. destruct H1; subst.
    apply mbind_ok in H. destruct H as (rs' & n2 & H2 & H).
    apply IH in H2. destruct H2; subst.
    apply mret_ok in H. destruct H; subst. split; [reflexivity|lia].
Qed.

Lemma mrandoms_run {F} k (rng : Rng F) n :
  mrandoms k rng n = Ok (map rng (seq n k), n + k).
Proof.
  revert n. induction k as [|k IH]; simpl; intros n.
  - unfold mret. rewrite Nat.add_0_r. reflexivity.
  - unfold mbind, mrandom, mret. rewrite IH. f_equal. f_equal. lia.
Qed.

(** Break one [.. = Ok _] hypothesis into its parts. *)
Ltac inv_ok_step :=
  match goal with
  | H : Ok _ = Ok _ |- _ => injection H; clear H; intros; subst
  | H : (_, _) = (_, _) |- _ => injection H; clear H; intros; subst
  | H : Panic _ = Ok _ |- _ => discriminate H
  | H : OutOfFuel = Ok _ |- _ => discriminate H
  | H : bind _ _ = Ok _ |- _ => apply bind_ok in H; destruct H as (? & ? & H)
  | H : mbind _ _ _ _ = Ok (_, _) |- _ => apply mbind_ok in H; destruct H as (? & ? & ? & H)
  | H : mlift _ _ _ = Ok (_, _) |- _ => apply mlift_ok in H; destruct H as (H & ?); subst
  | H : mret _ _ _ = Ok (_, _) |- _ => apply mret_ok in H; destruct H as (? & ?); subst
  | H : mrandom _ _ = Ok (_, _) |- _ => apply mrandom_ok in H; destruct H as (? & ?); subst
  | H : mrandoms _ _ _ = Ok (_, _) |- _ => apply mrandoms_ok in H; destruct H as (? & ?); subst
  | H : rassert _ = Ok _ |- _ => apply rassert_ok in H
  | H : idx _ _ = Ok _ |- _ => apply idx_ok in H
  | H : (let (_, _) := ?p in _) = Ok _ |- _ => destruct p
  | H : (let (_, _) := ?p in _) _ _ = Ok _ |- _ => destruct p
  end.
Ltac inv_ok := repeat inv_ok_step.
