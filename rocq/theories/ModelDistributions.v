(** * ModelDistributions.v - the build with the feature "distributions": its options in the input
    document (input.rs 281-335) and its main loop (physics.rs 15-16, 61-62, 74-76) *)
From Coq Require Import ZArith List Bool String.
From Verif Require Import Num ModelTypes ModelParticle ModelMaterial ModelBca ModelInput ModelToml ModelOutput ModelPhysics.
Import ListNotations.
Open Scope string_scope.
Open Scope nat_scope.

Section Distributions.
  Context {F : Type} {NF : Num F}.

  (** input.rs 319-333: the axes; none of the keys has a default *)
  Definition read_axes (t : Toml F) : Res (DistOptions F) :=
    let! energy_min := field "energy_min" de_f64 t in
    let! energy_max := field "energy_max" de_f64 t in
    let! energy_num := field "energy_num" de_usize t in
    let! angle_min := field "angle_min" de_f64 t in
    let! angle_max := field "angle_max" de_f64 t in
    let! angle_num := field "angle_num" de_usize t in
    let! x_min := field "x_min" de_f64 t in
    let! y_min := field "y_min" de_f64 t in
    let! z_min := field "z_min" de_f64 t in
    let! x_max := field "x_max" de_f64 t in
    let! y_max := field "y_max" de_f64 t in
    let! z_max := field "z_max" de_f64 t in
    let! x_num := field "x_num" de_usize t in
    let! y_num := field "y_num" de_usize t in
    let! z_num := field "z_num" de_usize t in
    Ok {| d_energy_min := energy_min; d_energy_max := energy_max; d_energy_num := energy_num;
          d_angle_min := angle_min; d_angle_max := angle_max; d_angle_num := angle_num;
          d_x_min := x_min; d_x_max := x_max; d_x_num := x_num;
          d_y_min := y_min; d_y_max := y_max; d_y_num := y_num;
          d_z_min := z_min; d_z_max := z_max; d_z_num := z_num |}.
  (** input.rs 283-335: the other options as in the plain build (input.rs 217-253) *)
  Definition read_options_distributions (t : Toml F) : Res (string * Options F * DistOptions F) :=
    let! (name, o) := read_options t in
    let! d := read_axes t in
    Ok (name, o, d).

  (** physics.rs 56-67: summary, histograms, lists *)
  Fixpoint process_particles_distributions (o : Options F) (u : OutputUnits F) (total_count : nat)
      (summary : SummaryPerSpecies F) (d : Distributions F) (events : list (Event F)) (ps : list (Particle F))
      : Res (SummaryPerSpecies F * Distributions F * list (Event F)) :=
    match ps with
    | [] => Ok (summary, d, events)
    | p :: ps' =>
        let! summary := sps_update summary p in
        let! d := distributions_update o u total_count d p in
        process_particles_distributions o u total_count summary d (events ++ output_lists o u p)%list ps'
    end.
  (** physics.rs 29-70 *)
  Fixpoint chunk_loop_distributions (run_chunk : list (Ion F) -> Res (list (Particle F)))
      (o : Options F) (u : OutputUnits F) (total_count : nat)
      (summary : SummaryPerSpecies F) (d : Distributions F) (cs : list (list (Ion F)))
      : Res (SummaryPerSpecies F * Distributions F * list (list (Event F))) :=
    match cs with
    | [] => Ok (summary, d, [])
    | c :: cs' =>
        let! finished := run_chunk c in
        let! (summary, d, events) := process_particles_distributions o u total_count summary d [] finished in
        let! (summary, d, rest) := chunk_loop_distributions run_chunk o u total_count summary d cs' in
        Ok (summary, d, (events ++ output_list_flush)%list :: rest)
    end.
  (** physics.rs 3-81; the last component is what output.rs 66-80 writes to "distributions.toml" *)
  Definition physics_loop_distributions (run_chunk : list (Ion F) -> Res (list (Particle F)))
      (axes : DistOptions F) (o : Options F) (u : OutputUnits F) (ions : list (Ion F))
      : Res (SummaryPerSpecies F * Distributions F * list (list (Event F))) :=
    let total_count := List.length ions in
    match o_num_chunks o with
    | O => Panic ExplicitPanic
    | S _ =>
        let chunk_size := Nat.div total_count (o_num_chunks o) in
        let! _ := rassert (Nat.ltb 0 chunk_size) in
        chunk_loop_distributions run_chunk o u total_count sps_new (distributions_new axes) (chunks chunk_size ions)
    end.
End Distributions.
