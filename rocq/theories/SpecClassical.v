(** * SpecClassical.v - the classical scattering angle as an improper integral *)
From Coquelicot Require Import Coquelicot.
From Coq Require Import Reals.
From Verif Require Import SpecAngle.
Open Scope R_scope.

(** theta = pi - integral from r0 (where the radial velocity vanishes) to infinity *)
Definition classical_angle (V : R -> R) (E p r0 theta : R) : Prop :=
  is_RInt_gen (scattering_density V E p) (at_right r0) (Rbar_locally p_infty) (PI - theta).
(** Rutherford: two charges with the potential K / r scatter by theta with tan (theta / 2) = K / (2 E p) *)
Definition rutherford (K E p theta : R) : Prop := 0 < theta < PI /\ tan (theta / 2) = K / (2 * E * p).
