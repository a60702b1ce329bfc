(** * ModelParticle.v - structs.rs (Vector) and particle.rs *)
From Coq Require Import ZArith List Bool.
From Verif Require Import Num ModelTypes ModelConsts.
Import ListNotations.
Open Scope Z_scope.
Open Scope num_scope.

Section Particle.
  Context {F : Type} {NF : Num F}.

  (** ** structs.rs *)
  (** structs.rs 18-20 *)
  Definition v_magnitude (v : Vector F) : F :=
    nsqrt (vx v *! vx v +! vy v *! vy v +! vz v *! vz v).
  (** structs.rs 23-27: assign returns the other vector's components *)
  Definition v_assign (_self other : Vector F) : Vector F := mkV (vx other) (vy other) (vz other).
  (** structs.rs 30-35 *)
  Definition v_normalize (v : Vector F) : Vector F :=
    let magnitude := v_magnitude v in
    mkV (vx v /! magnitude) (vy v /! magnitude) (vz v /! magnitude).
  (** structs.rs 38-40 *)
  Definition v_add (v w : Vector F) : Vector F := mkV (vx v +! vx w) (vy v +! vy w) (vz v +! vz w).
  (** structs.rs 42-44 *)
  Definition v_dot (v w : Vector F) : F := vx v *! vx w +! vy v *! vy w +! vz v *! vz w.

  (** ** particle.rs *)
  (** particle.rs 99-137.  The two assertions are the only panics. *)
  Definition from_input (input : ParticleInput F) (options : Options F) : Res (Particle F) :=
    let dirx := pi_ux input in
    let diry := pi_uy input in
    let dirz := pi_uz input in
    let dir_mag := nsqrt (dirx *! dirx +! diry *! diry +! dirz *! dirz) in
    let! _ := rassert (nabs (dirx /! dir_mag) <! (nZ 1 -! neps)) in
    let! _ := rassert (pi_E input >! nZ 0) in
    let pos := mkV (pi_x input) (pi_y input) (pi_z input) in
    let dir := mkV (dirx /! dir_mag) (diry /! dir_mag) (dirz /! dir_mag) in
    Ok {| p_m := pi_m input; p_Z := pi_Z input; p_E := pi_E input; p_Ec := pi_Ec input;
          p_Es := pi_Es input; p_Ed := nZ 0;
          p_pos := pos; p_dir := dir; p_pos_old := pos; p_dir_old := dir; p_pos_origin := pos;
          p_energy_origin := pi_E input; p_asymptotic_deflection := nZ 0;
          p_stopped := false; p_left := false; p_incident := true; p_first_step := true;
          p_trajectory := [mkTE (pi_E input) (pi_x input) (pi_y input) (pi_z input)];
          p_energies := [];
          p_track_trajectories := o_track_trajectories options;
          p_number_collision_events := 0%nat; p_backreflected := false;
          p_interaction_index := pi_interaction_index input;
          p_weight := nZ 1; p_tag := 0; p_tracked_vector := mkV (nZ 0) (nZ 0) (nZ 0) |}.

  (** particle.rs 140-171 *)
  Definition particle_new (m Z E Ec Es Ed x y z dirx diry dirz : F) (incident track_trajectories : bool)
      (interaction_index : nat) : Particle F :=
    let dir_mag := nsqrt (dirx *! dirx +! diry *! diry +! dirz *! dirz) in
    let pos := mkV x y z in
    let dir := mkV (dirx /! dir_mag) (diry /! dir_mag) (dirz /! dir_mag) in
    {| p_m := m; p_Z := Z; p_E := E; p_Ec := Ec; p_Es := Es; p_Ed := Ed;
       p_pos := pos; p_dir := dir; p_pos_old := pos; p_dir_old := dir; p_pos_origin := pos;
       p_energy_origin := E; p_asymptotic_deflection := nZ 0;
       p_stopped := false; p_left := false; p_incident := incident; p_first_step := incident;
       p_trajectory := [];
       p_energies := [mkEL (nZ 0) (nZ 0) x y z];
       p_track_trajectories := track_trajectories;
       p_number_collision_events := 0%nat; p_backreflected := false;
       p_interaction_index := interaction_index;
       p_weight := nZ 1; p_tag := 0; p_tracked_vector := mkV (nZ 0) (nZ 0) (nZ 0) |}.

  (** particle.rs 174-211 *)
  Definition default_incident (m_amu Z E_eV Ec_eV Es_eV x dirx diry dirz : F) : Res (Particle F) :=
    let dir_mag := nsqrt (dirx *! dirx +! diry *! diry +! dirz *! dirz) in
    let y := nZ 0 in
    let z := nZ 0 in
    let! _ := rassert (nabs (dirx /! dir_mag) <! (nZ 1 -! neps)) in
    let! _ := rassert (E_eV >! nZ 0) in
    let pos := mkV x y z in
    let dir := mkV (dirx /! dir_mag) (diry /! dir_mag) (dirz /! dir_mag) in
    Ok {| p_m := m_amu *! cAMU; p_Z := Z; p_E := E_eV *! cEV; p_Ec := Ec_eV *! cEV; p_Es := Es_eV *! cEV;
       p_Ed := nZ 0;
       p_pos := pos; p_dir := dir; p_pos_old := pos; p_dir_old := dir; p_pos_origin := pos;
       p_energy_origin := E_eV; p_asymptotic_deflection := nZ 0;
       p_stopped := false; p_left := false; p_incident := true; p_first_step := true;
       p_trajectory := [];
       p_energies := [mkEL (nZ 0) (nZ 0) x y z];
       p_track_trajectories := false;
       p_number_collision_events := 0%nat; p_backreflected := false;
       p_interaction_index := 0%nat;
       p_weight := nZ 1; p_tag := 0; p_tracked_vector := mkV (nZ 0) (nZ 0) (nZ 0) |}.

  (** particle.rs 214-218 *)
  Definition update_trajectory_tracker (p : Particle F) : Particle F :=
    if p_track_trajectories p then
      set_p_trajectory (p_trajectory p ++ [mkTE (p_E p) (vx (p_pos p)) (vy (p_pos p)) (vz (p_pos p))]) p
    else p.

  (** particle.rs 221-225 *)
  Definition update_energy_loss_tracker (options : Options F) (En Ee : F) (p : Particle F) : Particle F :=
    if p_incident p && o_track_energy_losses options then
      set_p_energies (p_energies p ++ [mkEL En Ee (vx (p_pos p)) (vy (p_pos p)) (vz (p_pos p))]) p
    else p.

  (** particle.rs 228-235 *)
  Definition get_momentum (p : Particle F) : Vector F :=
    let speed := nsqrt (nZ 2 *! p_E p /! p_m p) in
    mkV (p_m p *! speed *! vx (p_dir p)) (p_m p *! speed *! vy (p_dir p)) (p_m p *! speed *! vz (p_dir p)).

  (** particle.rs 238-257 *)
  Definition rotate_dir (dir : Vector F) (psi phi : F) : Vector F :=
    let cosx := vx dir in
    let cosy := vy dir in
    let cosz := vz dir in
    let cphi := ncos phi in
    let sphi := nsin phi in
    let sa := nsqrt (nZ 1 -! cosx *! cosx) in
    let cpsi := ncos psi in
    let spsi := nsin psi in
    let cosx_new := cpsi *! cosx +! spsi *! cphi *! sa in
    let cosy_new := cpsi *! cosy -! spsi /! sa *! (cphi *! cosx *! cosy -! sphi *! cosz) in
    let cosz_new := cpsi *! cosz -! spsi /! sa *! (cphi *! cosx *! cosz +! sphi *! cosy) in
    v_normalize (v_assign dir (mkV cosx_new cosy_new cosz_new)).
  Definition rotate (psi phi : F) (p : Particle F) : Particle F :=
    set_p_dir (rotate_dir (p_dir p) psi phi) p.

  (** particle.rs 260-286: returns the moved particle and the distance traveled *)
  Definition advance (mfp asymptotic_deflection : F) (p0 : Particle F) : Particle F * F :=
    let p := if p_E p0 >! p_Ec p0 then update_trajectory_tracker p0 else p0 in
    let p := set_p_pos_old (mkV (vx (p_pos p)) (vy (p_pos p)) (vz (p_pos p))) p in
    let distance_traveled := mfp +! p_asymptotic_deflection p -! asymptotic_deflection in
    let p := set_p_pos (mkV (vx (p_pos p) +! vx (p_dir_old p) *! distance_traveled)
                            (vy (p_pos p) +! vy (p_dir_old p) *! distance_traveled)
                            (vz (p_pos p) +! vz (p_dir_old p) *! distance_traveled)) p in
    let p := set_p_asymptotic_deflection asymptotic_deflection p in
    let p := set_p_dir_old (mkV (vx (p_dir p)) (vy (p_dir p)) (vz (p_dir p))) p in
    (p, distance_traveled).

  (** particle.rs 289-301 *)
  Definition surface_refraction (normal : Vector F) (Es : F) (p : Particle F) : Particle F :=
    let E := p_E p in
    let costheta := v_dot (p_dir p) normal in
    let u1x := nsqrt (E /! (E +! Es)) *! vx (p_dir p) +!
               (((-! (nsqrt E)) *! costheta +! nsqrt (E *! npowi costheta 2 +! Es)) /! nsqrt (E +! Es)) *! vx normal in
    let u1y := nsqrt (E /! (E +! Es)) *! vy (p_dir p) +!
               (((-! (nsqrt E)) *! costheta +! nsqrt (E *! npowi costheta 2 +! Es)) /! nsqrt (E +! Es)) *! vy normal in
    let u1z := nsqrt (E /! (E +! Es)) *! vz (p_dir p) +!
               (((-! (nsqrt E)) *! costheta +! nsqrt (E *! npowi costheta 2 +! Es)) /! nsqrt (E +! Es)) *! vz normal in
    set_p_E (p_E p +! Es) (set_p_dir (mkV u1x u1y u1z) p).

  (** particle.rs 304-312 *)
  Definition refraction_angle (costheta0 energy_old energy_new : F) : Res F :=
    let costheta := if nabs costheta0 >! nZ 1 then nsignum costheta0 else costheta0 in
    let sintheta0 := nsqrt (nZ 1 -! costheta *! costheta) in
    let sintheta1 := sintheta0 *! nsqrt (energy_old /! energy_new) in
    let delta_theta := nasin sintheta1 -! nasin sintheta0 in
    let! _ := rassert (negb (nis_nan delta_theta)) in
    let sign := -! nsignum costheta in
    Ok (sign *! delta_theta).
End Particle.
