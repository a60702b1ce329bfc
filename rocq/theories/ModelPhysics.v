(** * ModelPhysics.v - physics.rs and main.rs *)
From Coq Require Import ZArith String List Bool.
From Verif Require Import Num ModelTypes ModelConsts ModelParticle ModelMaterial ModelBca ModelOutput.
Import ListNotations.
Open Scope Z_scope.
Open Scope num_scope.

(** physics.rs 29: [slice.chunks(n)] for n > 0: consecutive pieces of length n, the last one
    possibly shorter.  [fuel] is the length of the list. *)
Fixpoint chunks_fuel {A} (fuel n : nat) (l : list A) : list (list A) :=
  match fuel, l with
  | _, [] => []
  | O, _ => []
  | S fuel', _ => firstn n l :: chunks_fuel fuel' n (skipn n l)
  end.
(** physics.rs 29 *)
Definition chunks {A} (n : nat) (l : list A) : list (list A) := chunks_fuel (List.length l) n l.

Section Physics.
  Context {F : Type} {NF : Num F}.

  (** An ion of the input list (physics.rs 38, 47) together with the random numbers it will see.
      thread_rng is per thread; which stream an ion sees is not specified by
      the code, so it is an arbitrary function of the ion. *)
  Record Ion : Type := mkIon { ion_input : ParticleInput F; ion_rng : Rng F }.

  (** physics.rs 41, 50: from_input then single_ion_bca *)
  Definition run_ion (build : Build F) (mat : Material F) (options : Options F) (fuel : nat) (ion : Ion)
      : Res (list (Particle F)) :=
    let! p := from_input (ion_input ion) options in
    let! (out, _) := single_ion_bca build mat options fuel p (ion_rng ion) 0%nat in
    Ok out.

  (** physics.rs 44-53: serial [map(..).flatten()] *)
  Definition run_chunk_serial (build : Build F) (mat : Material F) (options : Options F) (fuel : nat)
      (chunk : list Ion) : Res (list (Particle F)) :=
    let! outs := mapM (run_ion build mat options fuel) chunk in
    Ok (List.concat outs).

  (** physics.rs 33-43: rayon splits the slice recursively; a leaf is processed
      sequentially by one thread and the results of the two halves of a split
      are concatenated left to right ([par_extend] preserves order).  The tree
      is chosen by the scheduler. *)
  Inductive Split (A : Type) : Type := Leaf (l : list A) | Fork (l r : Split A).
  Arguments Leaf {A} l.
  Arguments Fork {A} l r.
  Fixpoint split_leaves {A} (t : Split A) : list A :=
    match t with
    | Leaf l => l
    | Fork l r => split_leaves l ++ split_leaves r
    end.
  Fixpoint run_chunk_parallel (build : Build F) (mat : Material F) (options : Options F) (fuel : nat)
      (t : Split Ion) : Res (list (Particle F)) :=
    match t with
    | Leaf l => run_chunk_serial build mat options fuel l
    | Fork l r =>
        let! a := run_chunk_parallel build mat options fuel l in
        let! b := run_chunk_parallel build mat options fuel r in
        Ok (a ++ b)
    end.

  (** physics.rs 55-69: the effect of one chunk of finished particles *)
  Fixpoint process_particles (options : Options F) (units : OutputUnits F)
      (summary : SummaryPerSpecies F) (events : list (Event F)) (ps : list (Particle F))
      : Res (SummaryPerSpecies F * list (Event F)) :=
    match ps with
    | [] => Ok (summary, events)
    | p :: ps' =>
        let! summary := sps_update summary p in
        process_particles options units summary (events ++ output_lists options units p) ps'
    end.
  Definition process_chunk (options : Options F) (units : OutputUnits F)
      (summary : SummaryPerSpecies F) (ps : list (Particle F)) : Res (SummaryPerSpecies F * list (Event F)) :=
    let! (summary, events) := process_particles options units summary [] ps in
    Ok (summary, events ++ output_list_flush).

  (** physics.rs 28-70: the loop over chunks.  [run_chunk] is the serial or a
      parallel runner.  The result is the summary and the events of each chunk. *)
  Fixpoint chunk_loop (run_chunk : list Ion -> Res (list (Particle F)))
      (options : Options F) (units : OutputUnits F)
      (summary : SummaryPerSpecies F) (cs : list (list Ion)) : Res (SummaryPerSpecies F * list (list (Event F))) :=
    match cs with
    | [] => Ok (summary, [])
    | c :: cs' =>
        let! finished := run_chunk c in
        let! (summary, events) := process_chunk options units summary finished in
        let! (summary, rest) := chunk_loop run_chunk options units summary cs' in
        Ok (summary, events :: rest)
    end.

  (** physics.rs 3-81 (list output enabled, histograms in ModelOutput.v).
      Division by zero chunks panics. *)
  Definition physics_loop (run_chunk : list Ion -> Res (list (Particle F)))
      (options : Options F) (units : OutputUnits F) (ions : list Ion)
      : Res (SummaryPerSpecies F * list (list (Event F))) :=
    let total_count := List.length ions in
    match o_num_chunks options with
    | O => Panic ExplicitPanic
    | S _ =>
        let chunk_size := Nat.div total_count (o_num_chunks options) in
        let! _ := rassert (Nat.ltb 0 chunk_size) in
        chunk_loop run_chunk options units sps_new (chunks chunk_size ions)
    end.
End Physics.
Arguments Ion F : clear implicits.
Arguments Leaf {A} l.
Arguments Fork {A} l r.

(** ** main.rs 70-88: command line.  [args] includes the program name. *)
Open Scope string_scope.
Inductive GeometryType : Type := G_MESH0D | G_MESH1D | G_MESH2D | G_SPHERE | G_BALL | G_TRIMESH | G_HOMOGENEOUS2D.
Definition parse_geometry (parry3d : bool) (s : string) : Res GeometryType :=
  if String.eqb s "0D" then Ok G_MESH0D
  else if String.eqb s "1D" then Ok G_MESH1D
  else if String.eqb s "2D" then Ok G_MESH2D
  else if String.eqb s "SPHERE" then Ok G_SPHERE
  else if parry3d && String.eqb s "BALL" then Ok G_BALL
  else if parry3d && String.eqb s "TRIMESH" then Ok G_TRIMESH
  else if String.eqb s "HOMOGENEOUS2D" then Ok G_HOMOGENEOUS2D
  else Panic ExplicitPanic.
Definition parse_args (parry3d : bool) (args : list string) : Res (string * GeometryType) :=
  match args with
  | [_] => Ok ("input.toml", G_MESH2D)
  | [_; a1] => Ok (a1, G_MESH2D)
  | [_; a1; a2] => let! g := parse_geometry parry3d a1 in Ok (a2, g)
  | _ => Panic ExplicitPanic
  end.
