(** * SpecPotential.v - vocabulary of the statements about the shape of the interaction potentials *)
From Coq Require Import Reals.
From Verif Require Import ModelTypes.
Open Scope R_scope.

(** SI values *)
Definition elementary_charge : R := 1602176634 / 10 ^ 28.
Definition vacuum_permittivity : R := 88541878128 / 10 ^ 22.
Definition bohr_radius : R := 529177210903 / 10 ^ 22.
Definition angstrom : R := 1 / 10 ^ 10.
Definition electronvolt : R := elementary_charge.
(** energy of two point charges [Za] and [Zb] (in elementary charges) at distance [r] *)
Definition bare_coulomb (Za Zb r : R) : R :=
  Za * Zb * elementary_charge ^ 2 / (4 * PI * vacuum_permittivity * r).
(** [V] has its only minimum, of depth [depth], at [r_min] *)
Definition well (V : R -> R) (r_min depth : R) : Prop :=
  0 < r_min /\ V r_min = - depth /\ forall r, 0 < r -> r <> r_min -> - depth < V r.
(** [V] does not jump by more than [h] at [c] *)
Definition jumps_at_most (h : R) (V : R -> R) (c : R) : Prop :=
  forall eps, 0 < eps -> exists delta, 0 < delta /\ forall r, Rabs (r - c) < delta -> Rabs (V r - V c) < h + eps.
(** [y] lies between [a] and [b] *)
Definition between (a b y : R) : Prop := Rmin a b <= y <= Rmax a b.
