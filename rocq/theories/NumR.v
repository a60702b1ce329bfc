(** * NumR.v - exact real arithmetic as an instance of [Num].

    Guards: [Rdiv x 0], [sqrt] of a negative number, [ln] of a non-positive
    one and [Rpower] with non-positive base are total junk values in Coq; every
    theorem over [R] carries the guards that keep the code away from them. *)
From Coq Require Import ZArith List Bool Reals Lra Lia.
From Verif Require Import Num.
Import ListNotations.
Open Scope R_scope.

Definition Rltb (x y : R) : bool := if Rlt_dec x y then true else false.
Definition Rleb (x y : R) : bool := if Rle_dec x y then true else false.
Definition Reqb' (x y : R) : bool := if Req_EM_T x y then true else false.

(** m * 10^e *)
Definition Rlit (m e : Z) : R :=
  match e with
  | Zneg p => IZR m / IZR (10 ^ Zpos p)
  | _ => IZR m * IZR (10 ^ e)
  end.

(** atan2(y, x), in (-PI, PI] *)
Definition Ratan2 (y x : R) : R :=
  if Rlt_dec 0 x then atan (y / x)
  else if Rlt_dec x 0 then
    if Rle_dec 0 y then atan (y / x) + PI else atan (y / x) - PI
  else if Rlt_dec 0 y then PI / 2
  else if Rlt_dec y 0 then - PI / 2
  else 0.

(** x.powf(y): the usual power for x > 0; powers of 0; for negative x only
    integer exponents have a value (NaN otherwise in the code, 0 here). *)
Definition Rpowf (x y : R) : R :=
  if Rlt_dec 0 x then Rpower x y
  else if Req_EM_T x 0 then (if Req_EM_T y 0 then 1 else 0)
  else if Req_EM_T (IZR (Int_part y)) y then powerRZ x (Int_part y)
  else 0.

(** truncation towards zero *)
Definition Rtrunc (x : R) : Z :=
  if Rle_dec 0 x then Int_part x else (- Int_part (- x))%Z.
Definition Rto_i32 (x : R) : Z :=
  Z.max (- 2 ^ 31) (Z.min (2 ^ 31 - 1) (Rtrunc x)).

Definition Rsignum (x : R) : R := if Rle_dec 0 x then 1 else -1.

#[export] Instance NumR : Num R := {|
  nadd := Rplus; nsub := Rminus; nmul := Rmult; ndiv := Rdiv; nneg := Ropp; nabs := Rabs;
  nsqrt := sqrt; nexp := exp; nln := ln; nsin := sin; ncos := cos; nasin := asin; nacos := acos;
  natan2 := Ratan2; npowf := Rpowf; npowi := powerRZ;
  nlt := Rltb; nle := Rleb; neqb := Reqb';
  nis_nan := fun _ => false; nlt_inf := fun _ => true;
  nlit := Rlit; npi := PI; nfrac_2_sqrt_pi := 2 / sqrt PI; nsqrt_2 := sqrt 2;
  neps := / IZR (2 ^ 52);
  nmax_value := IZR ((2 ^ 53 - 1) * 2 ^ 971);
  nfloor := fun x => IZR (Int_part x);
  nto_i32 := Rto_i32; nsignum := Rsignum |}.

(** ** Rewriting the model's operations into Coq's reals *)
Lemma nadd_R (x y : R) : nadd x y = x + y. Proof. reflexivity. Qed.
Lemma nsub_R (x y : R) : nsub x y = x - y. Proof. reflexivity. Qed.
Lemma nmul_R (x y : R) : nmul x y = x * y. Proof. reflexivity. Qed.
Lemma ndiv_R (x y : R) : ndiv x y = x / y. Proof. reflexivity. Qed.
Lemma nneg_R (x : R) : nneg x = - x. Proof. reflexivity. Qed.
Lemma nabs_R (x : R) : nabs x = Rabs x. Proof. reflexivity. Qed.
Lemma nsqrt_R (x : R) : nsqrt x = sqrt x. Proof. reflexivity. Qed.
Lemma nexp_R (x : R) : nexp x = exp x. Proof. reflexivity. Qed.
Lemma nln_R (x : R) : nln x = ln x. Proof. reflexivity. Qed.
Lemma nsin_R (x : R) : nsin x = sin x. Proof. reflexivity. Qed.
Lemma ncos_R (x : R) : ncos x = cos x. Proof. reflexivity. Qed.
Lemma npowi_R (x : R) n : npowi x n = powerRZ x n. Proof. reflexivity. Qed.
Lemma npowi2_R (x : R) : npowi x 2 = x * x.
Proof. simpl. ring. Qed.
Lemma npowi3_R (x : R) : npowi x 3 = x * x * x.
Proof. simpl. ring. Qed.
Lemma npowf_pos (x y : R) : 0 < x -> npowf x y = Rpower x y.
Proof. intros H. simpl. unfold Rpowf. destruct (Rlt_dec 0 x); [reflexivity|contradiction]. Qed.
Lemma nZ_R z : nZ z = IZR z.
Proof. change (IZR z * IZR 1 = IZR z). ring. Qed.
Lemma nnat_R n : nnat n = INR n.
Proof. rewrite INR_IZR_INZ. exact (nZ_R (Z.of_nat n)). Qed.
Lemma nlit_neg m p : nlit m (Zneg p) = IZR m / IZR (10 ^ Zpos p).
Proof. reflexivity. Qed.

Lemma nlt_true (x y : R) : nlt x y = true <-> x < y.
Proof. simpl. unfold Rltb. destruct (Rlt_dec x y); split; intros; auto; discriminate. Qed.
Lemma nlt_false (x y : R) : nlt x y = false <-> y <= x.
Proof. simpl. unfold Rltb. destruct (Rlt_dec x y); split; intros; auto; try discriminate; lra. Qed.
Lemma nle_true (x y : R) : nle x y = true <-> x <= y.
Proof. simpl. unfold Rleb. destruct (Rle_dec x y); split; intros; auto; discriminate. Qed.
Lemma nle_false (x y : R) : nle x y = false <-> y < x.
Proof. simpl. unfold Rleb. destruct (Rle_dec x y); split; intros; auto; try discriminate; lra. Qed.
Lemma neqb_true (x y : R) : neqb x y = true <-> x = y.
Proof. simpl. unfold Reqb'. destruct (Req_EM_T x y); split; intros; auto; discriminate. Qed.
Lemma neqb_false (x y : R) : neqb x y = false <-> x <> y.
Proof. simpl. unfold Reqb'. destruct (Req_EM_T x y); split; intros; auto; try discriminate; contradiction. Qed.

Lemma powerRZ2 x : powerRZ x 2 = x * x. Proof. simpl. ring. Qed.
Lemma powerRZ3 x : powerRZ x 3 = x * x * x. Proof. simpl. ring. Qed.

(** Rewrite the model's operations into Coq's. *)
Ltac toR :=
  cbv zeta;
  change (@nadd R NumR) with Rplus;
  change (@nsub R NumR) with Rminus;
  change (@nmul R NumR) with Rmult;
  change (@ndiv R NumR) with Rdiv;
  change (@nneg R NumR) with Ropp;
  change (@nabs R NumR) with Rabs;
  change (@nsqrt R NumR) with sqrt;
  change (@nexp R NumR) with exp;
  change (@nln R NumR) with ln;
  change (@nsin R NumR) with sin;
  change (@ncos R NumR) with cos;
  change (@natan2 R NumR) with Ratan2;
  change (@npowi R NumR) with powerRZ;
  change (@npi R NumR) with PI;
  change (@nfrac_2_sqrt_pi R NumR) with (2 / sqrt PI);
  rewrite ?powerRZ2, ?powerRZ3, ?nZ_R, ?nnat_R.
Ltac toR_in H :=
  cbv zeta in H;
  change (@nadd R NumR) with Rplus in H;
  change (@nsub R NumR) with Rminus in H;
  change (@nmul R NumR) with Rmult in H;
  change (@ndiv R NumR) with Rdiv in H;
  change (@nneg R NumR) with Ropp in H;
  change (@nabs R NumR) with Rabs in H;
  change (@nsqrt R NumR) with sqrt in H;
  change (@nexp R NumR) with exp in H;
  change (@nln R NumR) with ln in H;
  change (@nsin R NumR) with sin in H;
  change (@ncos R NumR) with cos in H;
  change (@natan2 R NumR) with Ratan2 in H;
  change (@npowi R NumR) with powerRZ in H;
  change (@npi R NumR) with PI in H;
  change (@nfrac_2_sqrt_pi R NumR) with (2 / sqrt PI) in H;
  rewrite ?powerRZ2, ?powerRZ3, ?nZ_R, ?nnat_R in H.

(** boolean comparisons in hypotheses and goals *)
Ltac bool_R :=
  repeat match goal with
  | H : nlt _ _ = true |- _ => apply nlt_true in H
  | H : nlt _ _ = false |- _ => apply nlt_false in H
  | H : nle _ _ = true |- _ => apply nle_true in H
  | H : nle _ _ = false |- _ => apply nle_false in H
  | H : neqb _ _ = true |- _ => apply neqb_true in H
  | H : neqb _ _ = false |- _ => apply neqb_false in H
  | H : _ && _ = true |- _ => apply andb_prop in H; destruct H
  | |- nlt _ _ = true => apply nlt_true
  | |- nlt _ _ = false => apply nlt_false
  | |- nle _ _ = true => apply nle_true
  | |- nle _ _ = false => apply nle_false
  | |- neqb _ _ = true => apply neqb_true
  | |- neqb _ _ = false => apply neqb_false
  end.

Lemma nsum_R (l : list R) : nsum l = fold_right Rplus 0 l.
Proof.
  unfold nsum. rewrite nZ_R.
  assert (H : forall a, fold_left nadd l a = a + fold_right Rplus 0 l).
  { induction l as [|x l IH]; simpl; intros a; [ring|]. rewrite IH. ring. }
  rewrite H. ring.
Qed.
