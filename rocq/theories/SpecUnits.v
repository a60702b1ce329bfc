(** * SpecUnits.v - SI values of the unit names, and equal quantities in different units *)
From Coq Require Import ZArith List Bool Reals.
From Verif Require Import Num NumR ModelTypes ModelGeometry ModelMaterial.
Import ListNotations.
Open Scope R_scope.

(** [None]: a string that is neither a known unit nor a number *)
Definition metres (u : LengthUnit R) : option R :=
  match u with
  | LU_MICRON => Some (1 / 10 ^ 6) | LU_CM => Some (1 / 10 ^ 2) | LU_MM => Some (1 / 10 ^ 3)
  | LU_ANGSTROM => Some (1 / 10 ^ 10) | LU_NM => Some (1 / 10 ^ 9) | LU_M => Some 1
  | LU_other v => v
  end.
Definition joules (u : EnergyUnit R) : option R :=
  let eV := 1602176634 / 10 ^ 28 in
  match u with
  | EU_EV => Some eV | EU_J => Some 1 | EU_KEV => Some (1000 * eV) | EU_MEV => Some (1000000 * eV)
  | EU_other v => v
  end.
Definition kilograms (u : MassUnit R) : option R :=
  match u with MU_AMU => Some (166053906660 / 10 ^ 38) | MU_KG => Some 1 | MU_other v => v end.

(** equal lengths, areas' corners, densities, given in units of [a] and [b] metres *)
Definition same_length (a b x y : R) : Prop := x * a = y * b.
Definition same_point (a b : R) (p q : R * R) : Prop := fst p * a = fst q * b /\ snd p * a = snd q * b.
Definition same_point3 (a b : R) (p q : R * R * R) : Prop :=
  same_point a b (fst p) (fst q) /\ snd p * a = snd q * b.
Definition same_density (a b n n' : R) : Prop := n / a ^ 3 = n' / b ^ 3.

(** ** Accepted incident particles *)
Definition length3 (x y z : R) : R := sqrt (x ^ 2 + y ^ 2 + z ^ 2).
(** positive energy, and a direction at least 2^-52 (relatively) away from the surface normal *)
Definition acceptable (E ux uy uz : R) : Prop :=
  0 < E /\ Rabs ux < (1 - / 2 ^ 52) * length3 ux uy uz.
(** [v] is the unit vector along (x,y,z) *)
Definition unit_along (v : Vector R) (x y z : R) : Prop :=
  length3 (vx v) (vy v) (vz v) = 1 /\
  x = length3 x y z * vx v /\ y = length3 x y z * vy v /\ z = length3 x y z * vz v.
(** nothing has happened to the particle yet *)
Definition fresh (p : Particle R) (x y z : R) : Prop :=
  p_pos p = mkV x y z /\ p_pos_old p = mkV x y z /\ p_pos_origin p = mkV x y z /\ p_dir_old p = p_dir p /\
  p_asymptotic_deflection p = 0 /\ p_stopped p = false /\ p_left p = false /\ p_incident p = true /\
  p_first_step p = true /\ p_backreflected p = false /\ p_number_collision_events p = 0%nat.
