(** * SpecConserve64.v - vocabulary for the energy balance in double precision (C132) *)
From Coq Require Import ZArith List Bool Reals.
From Flocq Require Import Core BinarySingleNaN.
From Verif Require Import Num NumSF NumB SpecFloat64 ModelTypes ModelInteractions ModelBca.
Open Scope R_scope.
(** Energy transfer of an elastic collision of masses [a] and [b] at energy [e], for a sine [s] of half the
    angle of deflection: 4 a b / (a + b)^2 * e * s^2, without rounding. *)
Definition exact_transfer (a b e s : R) : R := 4 * (a * b) / ((a + b) * (a + b)) * e * (s * s).
(** The energies of the projectile and its total reported loss to recoils, without rounding of the sum. *)
Definition held {NB : Num f64} (cs : @CollisionState f64) : R := B2R (p_E (cs_particle_1 cs)) + B2R (cs_total_energy_lost_to_recoils cs).
(** Masses of targets in the range of doubles, each the same as that of the projectile or further from it than
    one part in 2^24. *)
Definition known (targets : list f64) (m : f64) : Prop := plain_mass m /\ Forall plain_mass targets /\ Forall (same_or_apart m) targets.
