(** * SpecTwo.v - vocabulary for properties that compare two simulations. *)
From Coq Require Import ZArith List Bool.
From Verif Require Import Num ModelTypes.
Import ListNotations.

(** Two runs agree up to [R]: both succeed with related results, or both end
    in the same way. *)
Definition agree {A B} (R : A -> B -> Prop) (a : Res A) (b : Res B) : Prop :=
  match a, b with
  | Ok x, Ok y => R x y
  | Panic j, Panic k => j = k
  | OutOfFuel, OutOfFuel => True
  | _, _ => False
  end.
(** ... having consumed equally many random numbers *)
Definition agree_run {A B} (R : A -> B -> Prop) (a : Res (A * nat)) (b : Res (B * nat)) : Prop :=
  agree (fun x y => R (fst x) (fst y) /\ snd x = snd y) a b.

Section Two.
  Context {F : Type}.

  (** Equal in everything but weight, tag, tracked vector, the two histories,
      the flag that switches the trajectory on and, for an incident particle,
      the energy it was born with (which only the displacement file reports,
      and only for recoils). *)
  Definition same_physics (p q : Particle F) : Prop :=
    p_m p = p_m q /\ p_Z p = p_Z q /\ p_E p = p_E q /\ p_Ec p = p_Ec q /\ p_Es p = p_Es q /\ p_Ed p = p_Ed q /\
    p_pos p = p_pos q /\ p_dir p = p_dir q /\ p_pos_old p = p_pos_old q /\ p_dir_old p = p_dir_old q /\
    p_pos_origin p = p_pos_origin q /\ (p_incident p = false -> p_energy_origin p = p_energy_origin q) /\
    p_asymptotic_deflection p = p_asymptotic_deflection q /\
    p_stopped p = p_stopped q /\ p_left p = p_left q /\ p_incident p = p_incident q /\
    p_first_step p = p_first_step q /\ p_number_collision_events p = p_number_collision_events q /\
    p_backreflected p = p_backreflected q /\ p_interaction_index p = p_interaction_index q.

  (** Equal in the options that describe physics; tracking of trajectories,
      displacements and energy losses, buffering, threads, chunks and the input
      file format may differ. *)
  Definition same_physics_options (o o' : Options F) : Prop :=
    o_track_recoils o = o_track_recoils o' /\
    o_weak_collision_order o = o_weak_collision_order o' /\
    o_suppress_deep_recoils o = o_suppress_deep_recoils o' /\
    o_high_energy_free_flight_paths o = o_high_energy_free_flight_paths o' /\
    o_electronic_stopping_mode o = o_electronic_stopping_mode o' /\
    o_mean_free_path_model o = o_mean_free_path_model o' /\
    o_interaction_potential o = o_interaction_potential o' /\
    o_scattering_integral o = o_scattering_integral o' /\
    o_root_finder o = o_root_finder o'.
End Two.

(** Two computations on one random stream, the second starting where the first
    stopped drawing, results joined. *)
Definition one_after_the_other {F A} (first second : M F A) (join : A -> A -> A) : M F A := fun rng n =>
  match first rng n with
  | Ok (x, n1) => match second rng n1 with
                  | Ok (y, n2) => Ok (join x y, n2)
                  | Panic k => Panic k
                  | OutOfFuel => OutOfFuel
                  end
  | Panic k => Panic k
  | OutOfFuel => OutOfFuel
  end.
