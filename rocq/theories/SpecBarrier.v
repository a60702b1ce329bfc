(** * SpecBarrier.v - what a particle owes to the surface barrier (exact arithmetic) *)
From Coq Require Import ZArith List Bool Reals.
From Verif Require Import Num NumR ModelTypes ModelParticle ModelGeometry ModelMaterial ModelBca Spec SpecShift SpecR.
Import ListNotations.
Open Scope R_scope.

(** The states of a run: the particle in flight and the recoils that wait.  An
    iteration follows while the particle flies, then the next recoil is taken. *)
Inductive reached (build : Build R) (mat : Material R) (options : Options R) (rng : Rng R) (ion : Particle R) (n0 : nat) :
  Particle R -> list (Particle R) -> nat -> Prop :=
| reached_start : reached build mat options rng ion n0 ion [] n0
| reached_step p ps n p' ps' n' :
    reached build mat options rng ion n0 p ps n -> active p ->
    bca_step build mat options p ps rng n = Ok ((p', ps'), n') ->
    reached build mat options rng ion n0 p' ps' n'
| reached_next p q ps n :
    reached build mat options rng ion n0 p (q :: ps) n -> ~ active p ->
    reached build mat options rng ion n0 q ps n.

(** [B]: the surface binding energy of a particle, the same everywhere *)
Definition uniform_barrier (mat : Material R) (B : Particle R -> R) : Prop :=
  (forall p x y z e, actual_surface_binding_energy mat p x y z = Ok e -> e = B p) /\
  (forall p p', p_Es p = p_Es p' -> B p = B p') /\
  (forall p, 0 <= p_Es p -> 0 <= B p).
(** A particle owes its surface binding energy while it is behind the barrier,
    and after a reflection until it is back. *)
Definition owes (mat : Material R) (p : Particle R) : bool :=
  negb (p_left p) &&
  (match in_barrier mat (p_pos p) with Ok b => b | _ => false end || p_backreflected p).
(** the energy a particle would have after paying *)
Definition free_energy (mat : Material R) (B : Particle R -> R) (p : Particle R) : R :=
  p_E p - if owes mat p then B p else 0.
(** An iteration from [p] to [p'] in which the particle gets out of the barrier
    without paying and without being reflected: it left at once, or it crossed
    the barrier while its direction points back to the target. *)
Definition unpaid (mat : Material R) (p p' : Particle R) : Prop :=
  owes mat p = true /\
  (p_left p' = true \/
   in_barrier mat (p_pos p) = Ok true /\ in_barrier mat (p_pos p') = Ok false /\ p_backreflected p' = false /\
   exists c, mat_closest_point mat (vx (p_pos p')) (vy (p_pos p')) (vz (p_pos p')) = Ok (vx c, vy c, vz c) /\
             0 <= vdot (p_dir p') (vtoward (p_pos p') c)).
Definition never_unpaid build mat options rng ion n0 : Prop :=
  forall p ps n p' ps' n', reached build mat options rng ion n0 p ps n -> active p ->
    bca_step build mat options p ps rng n = Ok ((p', ps'), n') -> ~ unpaid mat p p'.
(** atoms of the target are behind the barrier *)
Definition barrier_outside (mat : Material R) : Prop :=
  forall v, in_material mat v = true -> in_barrier mat v = Ok true.
(** displacing an atom costs at least [eb] *)
Definition costs_at_least (mat : Material R) (eb : R) : Prop :=
  0 <= eb /\ forall x y z e, average_bulk_binding_energy mat x y z = Ok e -> eb <= e.
(** what a displaced atom has cost: its energy, its bulk binding energy, and its
    surface binding energy if it got away *)
Definition cost_of (B : Particle R -> R) (eb : R) (p : Particle R) : R :=
  p_E p + eb + if p_left p then B p else 0.
Definition displaced (ps : list (Particle R)) : list (Particle R) := filter (fun p => negb (p_incident p)) ps.
Definition sputtered_atoms (ps : list (Particle R)) : list (Particle R) := filter (fun p => negb (p_incident p) && p_left p) ps.
