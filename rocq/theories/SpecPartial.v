(** * SpecPartial.v - vectors whose components may be undefined. *)
From Coq Require Import Reals.
From Verif Require Import Num ModelTypes.
Open Scope R_scope.

Definition undefined_vector : Vector (option R) := mkV None None None.
(** The vector is defined and has length one. *)
Definition has_length_one (v : Vector (option R)) : Prop :=
  exists a b c, v = mkV (Some a) (Some b) (Some c) /\ a * a + b * b + c * c = 1.
Definition unit_or_undefined (v : Vector (option R)) : Prop := has_length_one v \/ v = undefined_vector.
