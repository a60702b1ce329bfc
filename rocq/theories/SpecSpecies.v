(** * SpecSpecies.v - entering the same target with one species more
    (exact arithmetic). *)
From Coq Require Import ZArith List Bool Reals.
From Verif Require Import Num NumR ModelTypes SpecTwo.
Import ListNotations.
Open Scope R_scope.

(** entry [k] written twice *)
Definition doubled {A} (k : nat) (l l' : list A) : Prop :=
  exists before x after, length before = k /\ l = before ++ x :: after /\ l' = before ++ x :: x :: after.
(** entry [k] divided into two non-negative parts *)
Definition divided (k : nat) (l l' : list R) : Prop :=
  exists before a b after, length before = k /\ 0 <= a /\ 0 <= b /\
    l = before ++ (a + b) :: after /\ l' = before ++ a :: b :: after.
(** [v] put in front of entry [k] *)
Definition inserted {A} (k : nat) (v : A) (l l' : list A) : Prop :=
  exists before after, length before = k /\ l = before ++ after /\ l' = before ++ v :: after.
(** some value put in front of entry [k] *)
Definition extended {A} (k : nat) (l l' : list A) : Prop := exists v, inserted k v l l'.

(** Two geometries of the same shape and the same stopping correction; the
    densities, and the concentrations, are related by [D]. *)
Record same_shape (D : list R -> list R -> Prop) (g g' : Geometry R) : Prop := {
  ss_densities : forall x y z, agree D (g_get_densities g x y z) (g_get_densities g' x y z);
  ss_concentrations : forall x y z, agree D (g_get_concentrations g x y z) (g_get_concentrations g' x y z);
  ss_ck : forall x y z, g_get_ck g' x y z = g_get_ck g x y z;
  ss_inside : forall x y z, g_inside g' x y z = g_inside g x y z;
  ss_boundary : forall x y z, g_inside_simulation_boundary g' x y z = g_inside_simulation_boundary g x y z;
  ss_barrier : forall x y z, g_inside_energy_barrier g' x y z = g_inside_energy_barrier g x y z;
  ss_closest : forall x y z, g_closest_point g' x y z = g_closest_point g x y z }.

(** The species tables are related by [L]/[LN] (numbers/indices). *)
Record same_but_species (L : list R -> list R -> Prop) (LN : list nat -> list nat -> Prop)
    (D : list R -> list R -> Prop) (mat mat' : Material R) : Prop := {
  sb_m : L (mat_m mat) (mat_m mat'); sb_Z : L (mat_Z mat) (mat_Z mat');
  sb_Eb : L (mat_Eb mat) (mat_Eb mat'); sb_Es : L (mat_Es mat) (mat_Es mat');
  sb_Ec : L (mat_Ec mat) (mat_Ec mat'); sb_Ed : L (mat_Ed mat) (mat_Ed mat');
  sb_index : LN (mat_interaction_index mat) (mat_interaction_index mat');
  sb_geometry : same_shape D (mat_geometry mat) (mat_geometry mat');
  sb_model : mat_surface_binding_model mat' = mat_surface_binding_model mat }.

(** Species [k] is entered as two species with the same constants that share
    its density. *)
Definition species_divided (k : nat) : Material R -> Material R -> Prop :=
  same_but_species (doubled k) (doubled k) (divided k).
(** One more species is listed, in front of species [k], that is nowhere
    present. *)
Definition absent_species_added (k : nat) : Material R -> Material R -> Prop :=
  same_but_species (extended k) (extended k) (inserted k 0).

(** The AVERAGE surface-binding rule asks whether all the binding energies add
    up to zero. *)
Definition total_binding (mat : Material R) : R := fold_right Rplus 0 (mat_Es mat).
Definition averaging (mat : Material R) : Prop :=
  match mat_surface_binding_model mat with
  | SBM_AVERAGE | ISOTROPIC SBC_AVERAGE | PLANAR SBC_AVERAGE => True
  | _ => False
  end.
