(** * SpecShift.v - translated particles and geometries (exact arithmetic). *)
From Coq Require Import ZArith List Bool Reals.
From Verif Require Import Num NumR ModelTypes ModelGeometry.
Import ListNotations.
Open Scope R_scope.

Definition vshift (t v : Vector R) : Vector R := mkV (vx v + vx t) (vy v + vy t) (vz v + vz t).
Definition shift_point (t : Vector R) (e : TrajectoryElement R) : TrajectoryElement R :=
  mkTE (te_E e) (te_x e + vx t) (te_y e + vy t) (te_z e + vz t).
Definition shift_loss (t : Vector R) (e : EnergyLoss R) : EnergyLoss R :=
  mkEL (el_En e) (el_Ee e) (el_x e + vx t) (el_y e + vy t) (el_z e + vz t).
(** The same particle, everything that is a position moved by [t]. *)
Definition shift (t : Vector R) (p : Particle R) : Particle R :=
  {| p_m := p_m p; p_Z := p_Z p; p_E := p_E p; p_Ec := p_Ec p; p_Es := p_Es p; p_Ed := p_Ed p;
     p_pos := vshift t (p_pos p); p_dir := p_dir p; p_pos_old := vshift t (p_pos_old p); p_dir_old := p_dir_old p;
     p_pos_origin := vshift t (p_pos_origin p); p_energy_origin := p_energy_origin p;
     p_asymptotic_deflection := p_asymptotic_deflection p; p_stopped := p_stopped p; p_left := p_left p;
     p_incident := p_incident p; p_first_step := p_first_step p;
     p_trajectory := map (shift_point t) (p_trajectory p); p_energies := map (shift_loss t) (p_energies p);
     p_track_trajectories := p_track_trajectories p; p_number_collision_events := p_number_collision_events p;
     p_backreflected := p_backreflected p; p_interaction_index := p_interaction_index p;
     p_weight := p_weight p; p_tag := p_tag p; p_tracked_vector := p_tracked_vector p |}.

(** The geometry looks the same from a point and from that point moved by [t]. *)
Record symmetric_along (t : Vector R) (g : Geometry R) : Prop := {
  sym_densities : forall x y z, g_get_densities g (x + vx t) (y + vy t) (z + vz t) = g_get_densities g x y z;
  sym_ck : forall x y z, g_get_ck g (x + vx t) (y + vy t) (z + vz t) = g_get_ck g x y z;
  sym_concentrations : forall x y z,
    g_get_concentrations g (x + vx t) (y + vy t) (z + vz t) = g_get_concentrations g x y z;
  sym_inside : forall x y z, g_inside g (x + vx t) (y + vy t) (z + vz t) = g_inside g x y z;
  sym_boundary : forall x y z,
    g_inside_simulation_boundary g (x + vx t) (y + vy t) (z + vz t) = g_inside_simulation_boundary g x y z;
  sym_barrier : forall x y z,
    g_inside_energy_barrier g (x + vx t) (y + vy t) (z + vz t) = g_inside_energy_barrier g x y z;
  sym_closest : forall x y z,
    g_closest_point g (x + vx t) (y + vy t) (z + vz t) =
    bind (g_closest_point g x y z) (fun c => Ok (fst (fst c) + vx t, snd (fst c) + vy t, snd c + vz t)) }.

(** Densities and the stopping correction factor do not vary with z. *)
Definition uniform_in_z {F} (g : Geometry F) : Prop :=
  forall x y z z', g_get_densities g x y z = g_get_densities g x y z' /\ g_get_ck g x y z = g_get_ck g x y z'.

(** The seven geometries the program can be run with. *)
Inductive shipped {F} {NF : Num F} : Geometry F -> Prop :=
| shipped_0d g : shipped (mesh0d_geometry g)
| shipped_1d g : shipped (mesh1d_geometry g)
| shipped_2d g : shipped (mesh2d_geometry g)
| shipped_homogeneous g : shipped (homogeneous2d_geometry g)
| shipped_sphere g : shipped (sphere_geometry g)
| shipped_ball g : shipped (parryball_geometry g)
| shipped_trimesh g : shipped (parrytrimesh_geometry g).

(** ** Stopping cross sections, SI units (the textbook formulas) *)
Definition elementary_charge : R := 1602176634 / 10 ^ 28.
Definition atomic_mass : R := 166053906660 / 10 ^ 38.
Definition electron_mass : R := 91093837015 / 10 ^ 41.
Definition light_speed : R := 299792458.
Definition vacuum_permittivity : R := 88541878128 / 10 ^ 22.
(** Lindhard and Scharff: 1.212 angstrom^2 eV per sqrt(eV/amu) *)
Definition lindhard_scharff (E m Z1 Z2 : R) : R :=
  1212 / 1000 * (1 / 10 ^ 10) ^ 2 * elementary_charge *
  (Rpower Z1 (7 / 6) * Z2 / Rpower (Rpower Z1 (2 / 3) + Rpower Z2 (2 / 3)) (3 / 2)) *
  sqrt ((E / elementary_charge) / (m / atomic_mass)).
(** Bethe with the relativistic speed of a particle of kinetic energy E, the
    fitted mean ionisation potential and the shell correction of Biersack *)
Definition lorentz (E m : R) : R := 1 + E / (m * light_speed ^ 2).
Definition beta_squared (E m : R) : R := 1 - 1 / lorentz E m ^ 2.
Definition ionisation (Z2 : R) : R :=
  Z2 * (if Rlt_dec Z2 13 then 12 + 7 / Z2 else 976 / 100 + 585 / 10 * Rpower Z2 (- 119 / 100)) * elementary_charge.
Definition shell (Z1 Z2 : R) : R := if Rlt_dec Z2 3 then 100 * Z1 / Z2 else 5.
Definition bethe (E m Z1 Z2 : R) : R :=
  let b2 := beta_squared E m in
  let eb := 2 * electron_mass * (b2 * light_speed ^ 2) / ionisation Z2 in
  4 * PI * (elementary_charge ^ 2 / (4 * PI * vacuum_permittivity)) ^ 2 / (electron_mass * light_speed ^ 2) *
  (Z1 ^ 2 * Z2 / b2) * ln (eb + 1 + shell Z1 Z2 / eb).
