(** * Spec.v - vocabulary used in the statements of the property theorems.

    Nothing here refers to the trajectory loop or to any helper of the model:
    only to particle fields, material arrays and the geometry's predicates. *)
From Coq Require Import ZArith List Bool.
From Verif Require Import Num ModelTypes ModelParticle ModelGeometry ModelMaterial.
Import ListNotations.

Section Spec.
  Context {F : Type} {NF : Num F}.

  (** The parts of a particle that transport must never change. *)
  Definition same_identity (p q : Particle F) : Prop :=
    p_m p = p_m q /\ p_Z p = p_Z q /\ p_Ec p = p_Ec q /\ p_Es p = p_Es q /\ p_Ed p = p_Ed q /\
    p_pos_origin p = p_pos_origin q /\ p_energy_origin p = p_energy_origin q /\
    p_incident p = p_incident q /\ p_track_trajectories p = p_track_trajectories q /\
    p_interaction_index p = p_interaction_index q /\ p_weight p = p_weight q /\
    p_tag p = p_tag q /\ p_tracked_vector p = p_tracked_vector q.

  Definition in_boundary (mat : Material F) (v : Vector F) : bool :=
    g_inside_simulation_boundary (mat_geometry mat) (vx v) (vy v) (vz v).
  Definition in_barrier (mat : Material F) (v : Vector F) : Res bool :=
    g_inside_energy_barrier (mat_geometry mat) (vx v) (vy v) (vz v).
  Definition in_material (mat : Material F) (v : Vector F) : bool :=
    g_inside (mat_geometry mat) (vx v) (vy v) (vz v).

  (** The particle came to rest in the target: inside the simulation boundary
      and the energy barrier, below its cutoff energy. *)
  Definition came_to_rest (mat : Material F) (p : Particle F) : Prop :=
    p_stopped p = true /\ p_left p = false /\
    in_boundary mat (p_pos p) = true /\ in_barrier mat (p_pos p) = Ok true /\
    nlt (p_E p) (p_Ec p) = true.
  (** The particle left the simulation: it is outside the simulation boundary. *)
  Definition escaped (mat : Material F) (p : Particle F) : Prop :=
    p_left p = true /\ p_stopped p = false /\ in_boundary mat (p_pos p) = false.
  Definition active (p : Particle F) : Prop := p_stopped p = false /\ p_left p = false.

  (** [r] is an atom of species number [i] of the material. *)
  Definition atom_of_species (mat : Material F) (i : nat) (r : Particle F) : Prop :=
    nth_error (mat_Z mat) i = Some (p_Z r) /\ nth_error (mat_m mat) i = Some (p_m r) /\
    nth_error (mat_Ec mat) i = Some (p_Ec r) /\ nth_error (mat_Es mat) i = Some (p_Es r) /\
    nth_error (mat_Ed mat) i = Some (p_Ed r) /\
    nth_error (mat_interaction_index mat) i = Some (p_interaction_index r).

  (** [r] is a recoil of the simulation of [ion]. *)
  Definition recoil_of (mat : Material F) (options : Options F) (ion r : Particle F) : Prop :=
    p_incident r = false /\
    (exists i, atom_of_species mat i r) /\
    in_material mat (p_pos_origin r) = true /\
    nlt (p_Ec r) (p_energy_origin r) = true /\
    p_weight r = p_weight ion /\ p_tag r = p_tag ion /\ p_tracked_vector r = p_tracked_vector ion /\
    p_track_trajectories r = o_track_recoil_trajectories options /\
    o_track_recoils options = true.

  (** The state of a recoil at the moment it is created. *)
  Definition newborn (r : Particle F) : Prop :=
    p_stopped r = false /\ p_left r = false /\ p_pos r = p_pos_origin r /\
    p_E r = p_energy_origin r /\ p_trajectory r = [] /\
    p_energies r = [mkEL (nZ 0) (nZ 0) (vx (p_pos_origin r)) (vy (p_pos_origin r)) (vz (p_pos_origin r))] /\
    p_number_collision_events r = 0%nat.

  Definition point_of (p : Particle F) : TrajectoryElement F :=
    mkTE (p_E p) (vx (p_pos p)) (vy (p_pos p)) (vz (p_pos p)).

  (** [p] is a later state of [p0]: its histories are those of [p0] with
      records appended at the end, and only where tracking is switched on. *)
  Definition history_extends (options : Options F) (p0 p : Particle F) : Prop :=
    (exists t, p_trajectory p = p_trajectory p0 ++ t /\
       (p_track_trajectories p0 = false -> t = [])) /\
    (exists e, p_energies p = p_energies p0 ++ e /\
       (p_incident p0 && o_track_energy_losses options = false -> e = [])) /\
    (p_number_collision_events p0 <= p_number_collision_events p)%nat.
  (** The last recorded trajectory point is the final position and energy. *)
  Definition ends_at_final_point (p : Particle F) : Prop :=
    p_track_trajectories p = true -> exists t, p_trajectory p = t ++ [point_of p].
  (** The last recorded energy loss is recorded at the final position. *)
  Definition losses_end_at_final_point (options : Options F) (p : Particle F) : Prop :=
    p_incident p = true -> o_track_energy_losses options = true ->
    exists e En Ee, p_energies p = e ++ [mkEL En Ee (vx (p_pos p)) (vy (p_pos p)) (vz (p_pos p))].

  (** ** Newton's method *)
  (** [xs] are consecutive Newton iterates after [x], for a function [f] with
      derivative [df], both of the scaled variable x*a *)
  Fixpoint newton_path (f df : F -> Res F) (a x : F) (xs : list F) : Prop :=
    match xs with
    | [] => True
    | x' :: xs' =>
        (exists fx dfx, f (nmul x a) = Ok fx /\ df (nmul x a) = Ok dfx /\ x' = nsub x (ndiv fx dfx)) /\
        newton_path f df a x' xs'
    end.
  (** the squared length of a step is below the tolerance *)
  Definition small_step (tolerance : F) (uv : F * F) : bool :=
    nlt (nmul (nsub (snd uv) (fst uv)) (nsub (snd uv) (fst uv))) tolerance.
End Spec.
