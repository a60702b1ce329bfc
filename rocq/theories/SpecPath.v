(** * SpecPath.v - free flight paths and recoil ranges of the literature (exact arithmetic, SI units) *)
From Coq Require Import ZArith List Bool Reals.
From Verif Require Import Num NumR ModelTypes ModelParticle ModelGeometry ModelMaterial SpecShift SpecR SpecEnergy.
Import ListNotations.
Open Scope R_scope.

(** Lindhard's reduced energy of a projectile (mass [M1], charge [Z1], energy [E])
    and an atom at rest *)
Definition lindhard_energy (Z1 M1 Z2 M2 E : R) : R :=
  4 * PI * vacuum_permittivity * lindhard_length Z1 Z2 * M2 * E / (Z1 * Z2 * elementary_charge ^ 2 * (M1 + M2)).
(** Eckstein (1991) 7.5.3: the range beyond which recoils need not be followed *)
Definition recoil_range (eps n a : R) : R := (Rpower eps (3 / 10) + 1 / 10) ^ 3 / (n * a ^ 2).
(** the distance between two points *)
Definition dist3 (u v : Vector R) : R := sqrt ((vx v - vx u) ^ 2 + (vy v - vy u) ^ 2 + (vz v - vz u) ^ 2).
(** mean of [values] over the species, weighted with the concentrations *)
Definition mean_over (values concentrations : list R) : R :=
  Rsum (map (fun vc => fst vc * snd vc) (combine values concentrations)).
(** the energy at which a head-on collision just transfers the cutoff energy *)
Definition least_energy (M1 M2 Ec : R) : R := Ec * (M1 + M2) ^ 2 / (4 * M1 * M2).
(** Biersack and Haggmark (1980), SRIM textbook chapter 7: beyond this impact
    parameter collisions are negligible *)
Definition largest_impact_parameter (Z1 M1 Z2 M2 E Ec : R) : R :=
  let e := sqrt (lindhard_energy Z1 M1 Z2 M2 E * lindhard_energy Z1 M1 Z2 M2 (least_energy M1 M2 Ec)) in
  lindhard_length Z1 Z2 / (e + sqrt e + 1 / 8 * Rpower e (1 / 10)).
(** path on which one atom is expected within the distance [p] *)
Definition path_for (n p : R) : R := 1 / (n * PI * p ^ 2).
(** and the distance for a path *)
Definition impact_for (n L : R) : R := sqrt (1 / (n * PI * L)).

(** Two sets of options that may differ in what is done about recoils: whether
    they are followed, whether deep ones are dropped, whether their
    trajectories or displacements are recorded.  Nothing is said either about
    buffer sizes, threads and chunks. *)
Definition same_but_recoils {F} (o o' : Options F) : Prop :=
  o_weak_collision_order o = o_weak_collision_order o' /\
  o_high_energy_free_flight_paths o = o_high_energy_free_flight_paths o' /\
  o_electronic_stopping_mode o = o_electronic_stopping_mode o' /\
  o_mean_free_path_model o = o_mean_free_path_model o' /\
  o_interaction_potential o = o_interaction_potential o' /\
  o_scattering_integral o = o_scattering_integral o' /\
  o_root_finder o = o_root_finder o' /\
  o_track_energy_losses o = o_track_energy_losses o'.
