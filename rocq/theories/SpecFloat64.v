(** * SpecFloat64.v - vocabulary for properties of the rounded program. *)
From Coq Require Import ZArith List Bool Reals Floats.SpecFloat.
From Flocq Require Import Core BinarySingleNaN.
From Verif Require Import Num NumSF NumB ModelTypes ModelMaterial.
Import ListNotations.
Open Scope R_scope.

(** What is assumed of the math library: sines are NaN or in [-1, 1], the second
    power is the rounded product. *)
Record sane_libm (lm : LibmB) : Prop := {
  sane_sin : forall x, is_nan (lb_sin lm x) = true \/ (is_finite (lb_sin lm x) = true /\ Rabs (B2R (lb_sin lm x)) <= 1);
  sane_square : forall x, lb_powi lm x 2 = Bmult mode_NE x x }.

(** [0.0 <= x] as the program would compute it; false for NaN. *)
Definition not_negative (x : f64) : Prop := Bleb (B754_zero false) x = true.

(** A mass between 2^-400 and 2^400 (the unit does not matter: 10^-120 to 10^120). *)
Definition plain_mass (m : f64) : Prop :=
  is_finite m = true /\ bpow radix2 (-400) <= B2R m <= bpow radix2 400.
(** The same mass, or masses that differ by more than one part in 2^24. *)
Definition same_or_apart (a b : f64) : Prop :=
  B2R a = B2R b \/ bpow radix2 (-25) * (B2R a + B2R b) <= Rabs (B2R a - B2R b).
(** Every two masses of ion and target. *)
Definition masses_apart (mat : Material f64) (ion : Particle f64) : Prop :=
  Forall plain_mass (p_m ion :: mat_m mat) /\
  forall a b, In a (p_m ion :: mat_m mat) -> In b (mat_m mat) -> same_or_apart a b.

(** Finite and at least zero. *)
Definition plain_number (x : f64) : Prop := is_finite x = true /\ 0 <= B2R x.
(** A target the positive result is about: cutoffs, surface binding energies and
    concentrations that are proper non-negative numbers, masses the same or
    apart, and a surface that takes the binding energy from the total energy
    (ISOTROPIC) - the planar models compare a rounded cosine. *)
Record tame_target (mat : Material f64) (ion : Particle f64) : Prop := {
  tame_masses : masses_apart mat ion;
  tame_cutoffs : Forall plain_number (mat_Ec mat);
  tame_surface : Forall plain_number (p_Es ion :: mat_Es mat);
  tame_concentrations : forall x y z cs, g_get_concentrations (mat_geometry mat) x y z = Ok cs -> Forall plain_number cs;
  tame_model : exists calculation, mat_surface_binding_model mat = ISOTROPIC calculation }.
(** Constants for at least [k] species. *)
Definition has_species (mat : Material f64) (k : nat) : Prop :=
  Forall (fun l => (k <= l)%nat) [length (mat_Z mat); length (mat_m mat); length (mat_Ec mat); length (mat_Es mat);
                                  length (mat_Ed mat); length (mat_interaction_index mat)].
