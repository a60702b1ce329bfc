(** * Num.v - results, panics, and the interface of f64 used by the code.

    The model is generic in the number type.  [Num F] lists exactly the f64
    operations that the modelled functions of /repo/src use.  See NumR.v (exact
    reals) and NumSF.v (IEEE-754 binary64) for instances. *)

From Coq Require Import ZArith List Bool.
Import ListNotations.

(** ** Results: a Rust panic is an explicit value. *)
Inductive PanicKind : Type :=
| IndexOOB        (* slice/Vec index out of bounds *)
| UnwrapNone      (* Option::unwrap on None *)
| UnwrapErr       (* Result::unwrap / expect on Err *)
| AssertFail      (* assert! / assert_eq! *)
| ExplicitPanic.  (* panic!(..) in the source *)

Inductive Res (A : Type) : Type :=
| Ok (a : A)
| Panic (k : PanicKind)
| OutOfFuel.
Arguments Ok {A} a.
Arguments Panic {A} k.
Arguments OutOfFuel {A}.

Definition bind {A B} (m : Res A) (f : A -> Res B) : Res B :=
  match m with
  | Ok a => f a
  | Panic k => Panic k
  | OutOfFuel => OutOfFuel
  end.

Declare Scope res_scope.
Delimit Scope res_scope with res.
Notation "'let!' x ':=' m 'in' k" := (bind m (fun x => k))
  (at level 200, x pattern, m at level 100, k at level 200, right associativity) : res_scope.
Open Scope res_scope.

(** [v[i]] on a Rust Vec: panics out of range. *)
Definition idx {A} (l : list A) (i : nat) : Res A :=
  match nth_error l i with
  | Some a => Ok a
  | None => Panic IndexOOB
  end.

(** [assert!(b)] *)
Definition rassert (b : bool) : Res unit :=
  if b then Ok tt else Panic AssertFail.

(** ** The f64 operations used by the code. *)
Class Num (F : Type) : Type := {
  nadd : F -> F -> F;
  nsub : F -> F -> F;
  nmul : F -> F -> F;
  ndiv : F -> F -> F;
  nneg : F -> F;
  nabs : F -> F;
  nsqrt : F -> F;
  nexp : F -> F;
  nln : F -> F;
  nsin : F -> F;
  ncos : F -> F;
  nasin : F -> F;
  nacos : F -> F;
  natan2 : F -> F -> F;          (* y.atan2(x) *)
  npowf : F -> F -> F;
  npowi : F -> Z -> F;
  nlt : F -> F -> bool;
  nle : F -> F -> bool;
  neqb : F -> F -> bool;
  nis_nan : F -> bool;
  nlt_inf : F -> bool;           (* x < f64::INFINITY *)
  nlit : Z -> Z -> F;            (* nlit m e: the f64 literal m * 10^e *)
  npi : F;                       (* std::f64::consts::PI *)
  nfrac_2_sqrt_pi : F;           (* std::f64::consts::FRAC_2_SQRT_PI *)
  nsqrt_2 : F;                   (* std::f64::consts::SQRT_2 *)
  neps : F;                      (* f64::EPSILON *)
  nmax_value : F;                (* f64::MAX *)
  nfloor : F -> F;
  nto_i32 : F -> Z;              (* x as i32: truncating, saturating, NaN -> 0 *)
  nsignum : F -> F;
}.

Declare Scope num_scope.
Delimit Scope num_scope with num.
Infix "+!" := nadd (at level 50, left associativity) : num_scope.
Infix "-!" := nsub (at level 50, left associativity) : num_scope.
Infix "*!" := nmul (at level 40, left associativity) : num_scope.
Infix "/!" := ndiv (at level 40, left associativity) : num_scope.
Notation "-! x" := (nneg x) (at level 35, right associativity) : num_scope.
Infix "<!" := nlt (at level 70) : num_scope.
Infix "<=!" := nle (at level 70) : num_scope.
Infix "==!" := neqb (at level 70) : num_scope.
Notation "x >! y" := (nlt y x) (at level 70, only parsing) : num_scope.
Notation "x >=! y" := (nle y x) (at level 70, only parsing) : num_scope.
Open Scope num_scope.

Section Num_misc.
  Context {F : Type} {NF : Num F}.

  (** integer literals [0.], [1.], [2.], ... *)
  Definition nZ (z : Z) : F := nlit z 0.
  Definition nnat (n : nat) : F := nlit (Z.of_nat n) 0.

  (** [iter().sum::<f64>()]: left fold from zero. (Newer toolchains start the
      fold from -0.0; the difference is invisible except for the sign of an
      all-zero sum.) *)
  Definition nsum (l : list F) : F := fold_left nadd l (nZ 0).
End Num_misc.

(** [a.iter().zip(b)] : stops at the shorter list. *)
Definition zip {A B} (a : list A) (b : list B) : list (A * B) := combine a b.

(** Run [f] on every element of a list, left to right, stopping at the first
    panic (an iterator [map(..).collect()] whose closure can panic). *)
Fixpoint mapM {A B} (f : A -> Res B) (l : list A) : Res (list B) :=
  match l with
  | [] => Ok []
  | a :: l' => let! b := f a in let! bs := mapM f l' in Ok (b :: bs)
  end.

(** ** Random numbers: [rand::random::<f64>()] is the next element of a
    stream; the counter of numbers already consumed is threaded through. *)
Definition Rng (F : Type) : Type := nat -> F.

Definition M (F A : Type) : Type := Rng F -> nat -> Res (A * nat).
Definition mret {F A} (a : A) : M F A := fun _ n => Ok (a, n).
Definition mbind {F A B} (m : M F A) (f : A -> M F B) : M F B :=
  fun rng n => match m rng n with
               | Ok (a, n') => f a rng n'
               | Panic k => Panic k
               | OutOfFuel => OutOfFuel
               end.
Definition mlift {F A} (r : Res A) : M F A :=
  fun _ n => match r with
             | Ok a => Ok (a, n)
             | Panic k => Panic k
             | OutOfFuel => OutOfFuel
             end.
Definition mrandom {F} : M F F := fun rng n => Ok (rng n, S n).
Notation "'do!' x ':=' m 'in' k" := (mbind m (fun x => k))
  (at level 200, x pattern, m at level 100, k at level 200, right associativity) : res_scope.

(** Draw [n] random numbers. *)
Fixpoint mrandoms {F} (n : nat) : M F (list F) :=
  match n with
  | O => mret []
  | S n' => do! r := mrandom in do! rs := mrandoms n' in mret (r :: rs)
  end.
