(** * SpecOrder64.v - vocabulary for targets in double precision (C111). *)
From Coq Require Import List Bool.
From Flocq Require Import Core BinarySingleNaN.
From Verif Require Import Num NumB ModelTypes ModelGeometry.

(** Inside the material means inside the surface barrier, which means inside
    the simulation volume - at every point, whatever its coordinates. *)
Definition nested64 (g : Geometry f64) : Prop := forall x y z : f64,
  (g_inside g x y z = true -> g_inside_energy_barrier g x y z = Ok true) /\
  (g_inside_energy_barrier g x y z = Ok true -> g_inside_simulation_boundary g x y z = true).
(** [top < x <= bottom] as computed: false for NaN. *)
Definition in_layer64 (l : Layer1D f64) (x : f64) : Prop := Bltb (l_top l) x = true /\ Bleb x (l_bottom l) = true.
