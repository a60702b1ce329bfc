(** * SpecUnit64.v - vocabulary for directions in double precision (C131) *)
From Coq Require Import ZArith List Bool Reals.
From Flocq Require Import Core BinarySingleNaN.
From Verif Require Import Num NumSF NumB ModelTypes ModelParticle.
Open Scope R_scope.
Definition numbers (v : Vector f64) : Prop := is_finite (vx v) = true /\ is_finite (vy v) = true /\ is_finite (vz v) = true.
(** the square of the length of the vector with these components, without rounding *)
Definition square_length (v : Vector f64) : R := B2R (vx v) * B2R (vx v) + B2R (vy v) * B2R (vy v) + B2R (vz v) * B2R (vz v).
(** the cosine-like product of two vectors, without rounding *)
Definition product (v w : Vector f64) : R := B2R (vx v) * B2R (vx w) + B2R (vy v) * B2R (vy w) + B2R (vz v) * B2R (vz w).
(** numbers, with a length whose square is within [tolerance] of one *)
Definition unit_within (tolerance : R) (v : Vector f64) : Prop := numbers v /\ Rabs (square_length v - 1) <= tolerance.
(** Components that are numbers up to 2^500 in size, one of them at least 2^-500. *)
Definition ordinary (v : Vector f64) : Prop :=
  numbers v /\ (Rabs (B2R (vx v)) <= bpow radix2 500 /\ Rabs (B2R (vy v)) <= bpow radix2 500 /\ Rabs (B2R (vz v)) <= bpow radix2 500) /\
  (bpow radix2 (-500) <= Rabs (B2R (vx v)) \/ bpow radix2 (-500) <= Rabs (B2R (vy v)) \/ bpow radix2 (-500) <= Rabs (B2R (vz v))).
(** What the math library returns for this angle is a sine and a cosine, up to 2^-50. *)
Definition good_angle (lm : LibmB) (a : f64) : Prop :=
  is_finite (lb_sin lm a) = true /\ is_finite (lb_cos lm a) = true /\
  Rabs (B2R (lb_sin lm a) * B2R (lb_sin lm a) + B2R (lb_cos lm a) * B2R (lb_cos lm a) - 1) <= / 2 ^ 50.
(** not within about 2^-20 of the x axis *)
Definition off_axis (v : Vector f64) : Prop := Rabs (B2R (vx v)) <= 1 - / 2 ^ 20.
(** the directions of a particle that is turned by one pair of angles after the other *)
Section Of.
  Context {lm : LibmB}.
  Let NB : Num f64 := NumB lm.
  Fixpoint directions (p : Particle f64) (angles : list (f64 * f64)) : list (Vector f64) :=
    match angles with
    | nil => cons (p_dir p) nil
    | cons (psi, phi) more => cons (p_dir p) (directions (@rotate f64 NB psi phi p) more)
    end.
End Of.
