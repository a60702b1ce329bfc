(** * SpecEnergy.v - electronic energy losses, free flight paths and recoil
    ranges, as the literature writes them (exact arithmetic, SI units). *)
From Coq Require Import ZArith List Bool Reals.
From Verif Require Import Num NumR ModelTypes ModelParticle ModelGeometry ModelMaterial SpecShift SpecR.
Import ListNotations.
Open Scope R_scope.

Definition bohr_radius : R := 529177210903 / 10 ^ 22.
(** screening lengths: Lindhard/Firsov and the universal one of Ziegler,
    Biersack and Littmark *)
Definition lindhard_length (Z1 Z2 : R) : R := 8853 / 10000 * bohr_radius / Rpower (sqrt Z1 + sqrt Z2) (2 / 3).
Definition universal_length (Z1 Z2 : R) : R :=
  88534 / 100000 * bohr_radius / (Rpower Z1 (23 / 100) + Rpower Z2 (23 / 100)).

(** The screening length and the smallest exponent of the screening function of
    an interaction potential. *)
Definition length_of (ip : InteractionPotential R) (Z1 Z2 : R) : R :=
  match ip with
  | ZBL => universal_length Z1 Z2
  | COULOMB Za Zb => universal_length Za Zb
  | MORSE _ alpha _ => alpha
  | _ => lindhard_length Z1 Z2
  end.
Definition exponent_of (ip : InteractionPotential R) : R :=
  match ip with
  | MOLIERE | COULOMB _ _ => 3 / 10
  | KR_C | TRIDYN => 278544 / 1000000
  | ZBL => 20162 / 100000
  | LENZ_JENSEN => 206 / 1000
  | _ => 1
  end.
(** Oen and Robinson: the loss in a collision with closest distance [x0] (in
    screening lengths [a]), cross section [S] *)
Definition oen_robinson (gamma a S x0 : R) : R := gamma ^ 2 / (2 * PI * a ^ 2) * S * exp (- gamma * x0).
(** continuous loss over a path through atoms of densities [n] *)
Definition continuous_loss (S n : list R) (path : R) : R :=
  fold_right Rplus 0 (map (fun Sn => fst Sn * snd Sn) (combine S n)) * path.
(** what is lost in one step, by mode *)
Definition loss_by_mode (mode : ElectronicStoppingMode) (S n : list R) (path gamma a s x0 : R) : R :=
  match mode with
  | INTERPOLATED | LOW_ENERGY_NONLOCAL => continuous_loss S n path
  | LOW_ENERGY_LOCAL => oen_robinson gamma a s x0
  | LOW_ENERGY_EQUIPARTITION => (oen_robinson gamma a s x0 + continuous_loss S n path) / 2
  end.
(** does the mode charge a loss per collision? *)
Definition has_local_part (mode : ElectronicStoppingMode) : bool :=
  match mode with LOW_ENERGY_LOCAL | LOW_ENERGY_EQUIPARTITION => true | _ => false end.

(** a target through which particles are slowed down: charges are positive,
    correction factors and densities are not negative *)
Record stopping_target (mat : Material R) : Prop := {
  st_Z : Forall (fun Z => 0 < Z) (mat_Z mat);
  st_ck : forall x y z ck, g_get_ck (mat_geometry mat) x y z = Ok ck -> 0 <= ck;
  st_n : forall x y z n, g_get_densities (mat_geometry mat) x y z = Ok n -> Forall (fun d => 0 <= d) n }.
(** a target without surface binding energies *)
Record no_surface_barrier (mat : Material R) : Prop := {
  nb_Es : Forall (fun e => e = 0) (mat_Es mat);
  nb_Eb : Forall (fun e => 0 <= e) (mat_Eb mat) }.
(** the energy carried by a list of particles *)
Definition total_energy (ps : list (Particle R)) : R := Rsum (map p_E ps).
