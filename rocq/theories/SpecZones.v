(** * SpecZones.v - the zones around a target. *)
From Coq Require Import List Bool Reals.
From Verif Require Import Num NumR ModelTypes ModelGeometry ModelMaterial.
Open Scope R_scope.

(** The distance over which a surface of number density [n] (per cubic metre)
    binds: 2/sqrt(pi) mean atomic distances. *)
Definition binding_distance (n : R) : R := 2 / sqrt PI * Rpower n (- (1 / 3)).
(** Number density (per cubic metre) of densities given per cubic length unit [u]. *)
Definition per_cubic_metre (u : R) (densities : list R) : R := fold_right Rplus 0 densities / (u * u * u).
(** The target is where [material] holds, it binds where [binding] holds, and
    particles are followed where [followed] holds. *)
Definition zones (g : Geometry R) (material binding followed : R -> R -> R -> Prop) : Prop :=
  forall x y z,
    (g_inside g x y z = true <-> material x y z) /\
    (exists b, g_inside_energy_barrier g x y z = Ok b /\ (b = true <-> binding x y z)) /\
    (g_inside_simulation_boundary g x y z = true <-> followed x y z).
Definition radius (x y z : R) : R := sqrt (x * x + y * y + z * z).
