(** * SpecTurn.v - turned and mirrored particles, flat geometries (exact arithmetic) *)
From Coq Require Import ZArith List Bool Reals.
From Verif Require Import Num NumR ModelTypes.
Import ListNotations.
Open Scope R_scope.

(** An orthogonal map of the plane of the surface: y and z are turned by the
    angle whose cosine and sine are given, then z is multiplied by [m_sign] (1 or -1). *)
Record LateralMap : Type := mkLM { m_cos : R; m_sin : R; m_sign : R }.
Definition orthogonal (L : LateralMap) : Prop :=
  m_cos L * m_cos L + m_sin L * m_sin L = 1 /\ (m_sign L = 1 \/ m_sign L = -1).
Definition turn_by (angle : R) : LateralMap := mkLM (cos angle) (sin angle) 1.
Definition mirror_z : LateralMap := mkLM 1 0 (-1).
Definition mirror_y : LateralMap := mkLM (-1) 0 (-1).
(** on directions *)
Definition turned (L : LateralMap) (v : Vector R) : Vector R :=
  mkV (vx v) (m_cos L * vy v - m_sin L * vz v) (m_sign L * (m_sin L * vy v + m_cos L * vz v)).
(** on positions: mapped, then displaced sideways by [d] *)
Definition placed (L : LateralMap) (d : R * R) (v : Vector R) : Vector R :=
  mkV (vx v) (vy (turned L v) + fst d) (vz (turned L v) + snd d).
Definition placed_point (L : LateralMap) (d : R * R) (e : TrajectoryElement R) : TrajectoryElement R :=
  let v := placed L d (mkV (te_x e) (te_y e) (te_z e)) in mkTE (te_E e) (vx v) (vy v) (vz v).
Definition placed_loss (L : LateralMap) (d : R * R) (e : EnergyLoss R) : EnergyLoss R :=
  let v := placed L d (mkV (el_x e) (el_y e) (el_z e)) in mkEL (el_En e) (el_Ee e) (vx v) (vy v) (vz v).
(** The same particle with every direction mapped by [L] and every position mapped
    by [L] and displaced by [d]. *)
Definition carried (L : LateralMap) (d : R * R) (p : Particle R) : Particle R :=
  {| p_m := p_m p; p_Z := p_Z p; p_E := p_E p; p_Ec := p_Ec p; p_Es := p_Es p; p_Ed := p_Ed p;
     p_pos := placed L d (p_pos p); p_dir := turned L (p_dir p); p_pos_old := placed L d (p_pos_old p); p_dir_old := turned L (p_dir_old p);
     p_pos_origin := placed L d (p_pos_origin p); p_energy_origin := p_energy_origin p;
     p_asymptotic_deflection := p_asymptotic_deflection p; p_stopped := p_stopped p; p_left := p_left p;
     p_incident := p_incident p; p_first_step := p_first_step p;
     p_trajectory := map (placed_point L d) (p_trajectory p); p_energies := map (placed_loss L d) (p_energies p);
     p_track_trajectories := p_track_trajectories p; p_number_collision_events := p_number_collision_events p;
     p_backreflected := p_backreflected p; p_interaction_index := p_interaction_index p;
     p_weight := p_weight p; p_tag := p_tag p; p_tracked_vector := p_tracked_vector p |}.

(** The target looks the same from a point and from that point mapped by [L] and
    displaced by any [d] with [ok d]. *)
Record symmetric_under (L : LateralMap) (ok : R * R -> Prop) (g : Geometry R) : Prop := {
  un_densities : forall d v, ok d -> let w := placed L d v in
    g_get_densities g (vx w) (vy w) (vz w) = g_get_densities g (vx v) (vy v) (vz v);
  un_ck : forall d v, ok d -> let w := placed L d v in
    g_get_ck g (vx w) (vy w) (vz w) = g_get_ck g (vx v) (vy v) (vz v);
  un_concentrations : forall d v, ok d -> let w := placed L d v in
    g_get_concentrations g (vx w) (vy w) (vz w) = g_get_concentrations g (vx v) (vy v) (vz v);
  un_inside : forall d v, ok d -> let w := placed L d v in
    g_inside g (vx w) (vy w) (vz w) = g_inside g (vx v) (vy v) (vz v);
  un_boundary : forall d v, ok d -> let w := placed L d v in
    g_inside_simulation_boundary g (vx w) (vy w) (vz w) = g_inside_simulation_boundary g (vx v) (vy v) (vz v);
  un_barrier : forall d v, ok d -> let w := placed L d v in
    g_inside_energy_barrier g (vx w) (vy w) (vz w) = g_inside_energy_barrier g (vx v) (vy v) (vz v);
  un_closest : forall d v, ok d -> let w := placed L d v in
    g_closest_point g (vx w) (vy w) (vz w) =
    bind (g_closest_point g (vx v) (vy v) (vz v)) (fun c =>
      let u := placed L d (mkV (fst (fst c)) (snd (fst c)) (snd c)) in Ok (vx u, vy u, vz u)) }.
