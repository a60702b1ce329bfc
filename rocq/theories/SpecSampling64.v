(** * SpecSampling64.v - vocabulary for sampling in double precision (C109). *)
From Coq Require Import ZArith List Bool Reals Floats.SpecFloat.
From Flocq Require Import Core BinarySingleNaN.
From Verif Require Import Num NumSF NumB ModelConsts SpecFloat64.
Open Scope R_scope.

(** A random number: a double in [0, 1). *)
Definition random_double (u : f64) : Prop := is_finite u = true /\ 0 <= B2R u < 1.
(** The radius sqrt(k) pmax, pmax = mfp/sqrt(pi), as the program computes it:
    the k-th annulus is between the k-th and the (k+1)-st radius. *)
Definition radius {lm : LibmB} (mfp : f64) (k : nat) : f64 :=
  let NB := NumB lm in nmul (ndiv mfp cSQRTPI) (nsqrt (nnat k)).
(** 2 pi, as the program computes it *)
Definition full_turn {lm : LibmB} : f64 := let NB := NumB lm in nmul (nZ 2) npi.
(** What is needed of the logarithm of the math library: for a double between 0
    and 1 it is a number between -1000 and 0 (ln 2^-1074 = -744.4). *)
Definition sane_ln (lm : LibmB) : Prop :=
  forall u : f64, is_finite u = true -> 0 < B2R u < 1 -> is_finite (lb_ln lm u) = true /\ -1000 <= B2R (lb_ln lm u) <= 0.
