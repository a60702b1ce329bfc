(** * ModelFeatures.v - physics.rs 3-81 with the cargo features "distributions" and "no_list_output" *)
From Coq Require Import ZArith List Bool.
From Verif Require Import Num ModelTypes ModelConsts ModelParticle ModelMaterial ModelBca ModelOutput ModelPhysics.
Import ListNotations.
Open Scope nat_scope.

Section Features.
  Context {F : Type} {NF : Num F}.

  (** Cargo.toml 49-50, physics.rs 10, 15, 60, 63, 68, 75: the two features of the output.
      The histogram options exist only with "distributions" (input.rs 318-333). *)
  Record Features : Type := mkFeatures { ft_distributions : option (DistOptions F); ft_no_list_output : bool }.

  (** What a run leaves behind: the species summary (physics.rs 72), the histograms written at
      the end (physics.rs 75-76) and what was done to the list files, per chunk (physics.rs 63-69).
      [None] in the last field: the list files were not even opened (physics.rs 10-11). *)
  Record Outcome : Type := mkOutcome {
    oc_summary : SummaryPerSpecies F;
    oc_histograms : option (Distributions F);
    oc_list_files : option (list (list (Event F))) }.

  (** physics.rs 60-61 *)
  Definition update_histograms (options : Options F) (units : OutputUnits F) (total_count : nat)
      (h : option (Distributions F)) (p : Particle F) : Res (option (Distributions F)) :=
    match h with
    | None => Ok None
    | Some d => let! d := distributions_update options units total_count d p in Ok (Some d)
    end.
  (** physics.rs 56-66: the loop over the finished particles of one chunk *)
  Fixpoint process_finished (no_list_output : bool) (options : Options F) (units : OutputUnits F) (total_count : nat)
      (summary : SummaryPerSpecies F) (h : option (Distributions F)) (events : list (Event F)) (ps : list (Particle F))
      : Res (SummaryPerSpecies F * option (Distributions F) * list (Event F)) :=
    match ps with
    | [] => Ok (summary, h, events)
    | p :: ps' =>
        let! summary := sps_update summary p in
        let! h := update_histograms options units total_count h p in
        process_finished no_list_output options units total_count summary h
          (if no_list_output then events else events ++ output_lists options units p) ps'
    end.
  (** physics.rs 28-70 *)
  Fixpoint chunk_loop_features (no_list_output : bool) (run_chunk : list (Ion F) -> Res (list (Particle F)))
      (options : Options F) (units : OutputUnits F) (total_count : nat)
      (summary : SummaryPerSpecies F) (h : option (Distributions F)) (cs : list (list (Ion F)))
      : Res (SummaryPerSpecies F * option (Distributions F) * list (list (Event F))) :=
    match cs with
    | [] => Ok (summary, h, [])
    | c :: cs' =>
        let! finished := run_chunk c in
        let! (summary, h, events) := process_finished no_list_output options units total_count summary h [] finished in
        let events := if no_list_output then events else events ++ output_list_flush in
        let! (summary, h, rest) := chunk_loop_features no_list_output run_chunk options units total_count summary h cs' in
        Ok (summary, h, events :: rest)
    end.
  (** physics.rs 3-81 *)
  Definition physics_loop_features (ft : Features) (run_chunk : list (Ion F) -> Res (list (Particle F)))
      (options : Options F) (units : OutputUnits F) (ions : list (Ion F)) : Res Outcome :=
    let total_count := length ions in
    match o_num_chunks options with
    | O => Panic ExplicitPanic
    | S _ =>
        let chunk_size := Nat.div total_count (o_num_chunks options) in
        let! _ := rassert (Nat.ltb 0 chunk_size) in
        let h := match ft_distributions ft with None => None | Some d => Some (distributions_new d) end in
        let! (summary, h, events) :=
          chunk_loop_features (ft_no_list_output ft) run_chunk options units total_count sps_new h (chunks chunk_size ions) in
        Ok (mkOutcome summary h (if ft_no_list_output ft then None else Some events))
    end.
End Features.
Arguments Features F : clear implicits.
Arguments Outcome F : clear implicits.
