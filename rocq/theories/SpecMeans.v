(** * SpecMeans.v - vocabulary for averages over the random numbers (C129) *)
From Coq Require Import Reals List Arith.
From Coquelicot Require Import Coquelicot.
From Verif Require Import Num ModelTypes.
Open Scope R_scope.
(** the average of f over a number uniform on (0, 1): its (improper) integral *)
Definition average (f : R -> R) (v : R) : Prop := is_RInt_gen f (at_right 0) (at_left 1) v.
(** the stream with u in place of its i-th number *)
Definition with_number (rng : Rng R) (i : nat) (u : R) : Rng R := fun j => if Nat.eqb j i then u else rng j.
(** what [get] says of the k-th sampled collision geometry (1 if there is none) *)
Definition of_geometry (get : BinaryCollisionGeometry R -> R) (k : nat)
    (result : Res (Particle R * list (BinaryCollisionGeometry R) * nat)) : R :=
  match result with
  | Ok (_, l, _) => match nth_error l k with Some b => get b | None => 1 end
  | _ => 1
  end.
