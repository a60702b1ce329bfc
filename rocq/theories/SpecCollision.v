(** * SpecCollision.v - vocabulary of the statements about interaction potentials *)
From Coq Require Import ZArith List Bool Reals.
From Verif Require Import Num NumR ModelTypes ModelConsts ModelInteractions SpecR.
Open Scope R_scope.

(** [V] is the interaction potential of the pair of atoms *)
Definition is_potential (a Za Zb : R) (ip : InteractionPotential R) (V : R -> R) : Prop :=
  forall r, interaction_potential r a Za Zb ip = Ok (V r).
(** physically meaningful parameters *)
Definition well_formed_potential (ip : InteractionPotential R) : Prop :=
  match ip with
  | LENNARD_JONES_12_6 sigma _ | LENNARD_JONES_65_6 sigma _ => 0 < sigma
  | MORSE _ alpha _ | KRC_MORSE _ alpha _ _ _ => alpha <> 0
  | FOUR_EIGHT alpha beta => 0 < alpha /\ 0 < beta
  | COULOMB Z1 Z2 => 0 < Z1 /\ 0 < Z2
  | _ => True
  end.
Definition is_four_eight (ip : InteractionPotential R) : Prop :=
  match ip with FOUR_EIGHT _ _ => True | _ => False end.
Definition is_coulomb (ip : InteractionPotential R) : Prop :=
  match ip with COULOMB _ _ => True | _ => False end.
(** the potentials that are polynomials in an inverse power of the distance *)
Definition inverse_polynomial (ip : InteractionPotential R) : Prop :=
  match ip with LENNARD_JONES_12_6 _ _ | LENNARD_JONES_65_6 _ _ | FOUR_EIGHT _ _ => True | _ => False end.
(** [V] vanishes at [c], is repulsive (positive) below and attractive above *)
Definition sign_change_at (V : R -> R) (c : R) : Prop :=
  V c = 0 /\ (forall r, 0 < r -> r < c -> 0 < V r) /\ (forall r, c < r -> V r < 0).
