(** * SpecRoots.v - vocabulary for the root finders and quadratures (exact arithmetic) *)
From Coq Require Import ZArith List Bool Reals.
From Verif Require Import Num NumR ModelTypes SpecR SpecCollision.
Import ListNotations.
Open Scope R_scope.

(** the turning point a particle coming from far away meets first *)
Definition outermost_turning_point (V : R -> R) (E p r : R) : Prop :=
  0 < r /\ turning_point V E p r /\ forall r', r < r' -> ~ turning_point V E p r'.
(** [l] lists exactly the numbers with property [P] *)
Definition lists_exactly (l : list R) (P : R -> Prop) : Prop := forall x, In x l <-> P x.
(** a potential with a repulsive core and an attractive tail *)
Definition attractive_tail (ip : InteractionPotential R) : Prop :=
  match ip with
  | LENNARD_JONES_12_6 s e | LENNARD_JONES_65_6 s e => 0 < s /\ 0 < e
  | MORSE D alpha _ => 0 < D /\ 0 < alpha
  | _ => False
  end.
(** a repulsive inverse-power core: what is left of the polynomial at zero is not zero *)
Definition repulsive_core (ip : InteractionPotential R) : Prop :=
  match ip with
  | LENNARD_JONES_12_6 s e | LENNARD_JONES_65_6 s e => 0 < s /\ 0 < e
  | FOUR_EIGHT alpha beta => 0 < alpha /\ 0 < beta
  | _ => False
  end.
(** value and integral over [0, 1] of the polynomial with the given
    coefficients, lowest power first *)
Definition value_at (u : R) (cs : list R) : R := fold_right (fun c s => c + u * s) 0 cs.
Definition magnitude (cs : list R) : R := fold_right (fun c s => Rabs c + s) 0 cs.
