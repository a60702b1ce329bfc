(** * ModelMain.v - the whole program, from the command line to the output files (main.rs 68-131).
    Build without the features "hdf5_input", "distributions" and "no_list_output".  A file is a TOML
    document, a list of rows, or anything else; the text of numbers and the header line of the summary
    are not modelled.  The progress bar and the lines printed on the terminal are not modelled. *)
From Coq Require Import ZArith List Bool String.
From Verif Require Import Num ModelTypes ModelParticle ModelGeometry ModelMaterial ModelBca ModelInput ModelToml ModelOutput ModelPhysics.
Import ListNotations.
Open Scope string_scope.
Open Scope nat_scope.

Section Main.
  Context {F : Type} {NF : Num F}.

  (** what input.rs 383-395 finds at a path, and what output.rs 223-419 puts there *)
  Inductive Content : Type := Document (t : Toml F) | Rows (rows : list (Row F)) | Other (bytes : string).
  (** paths as handed to [OpenOptions::open] (input.rs 386, output.rs 204-330) *)
  Definition FileSystem : Type := string -> option Content.

  (** What the program is built with and what it draws from: Cargo features (main.rs 81-84), str::parse,
      the constructors of geo and parry, the strategies of the build, rand's test of a standard deviation,
      the random numbers of the input stage, and the bound on the steps of the model. *)
  Record Program : Type := mkProgram {
    pg_parry3d : bool; pg_cpr : bool; pg_parse : string -> option F;
    pg_polygon : list (F * F) -> Polygon F; pg_ball : F -> BallQueries F;
    pg_mesh : list (F * F * F) -> list (nat * nat * nat) -> TriMeshQueries F;
    pg_build : Build F; pg_normal_ok : F -> bool; pg_rng : Rng F; pg_fuel : nat }.

  (** input.rs 377-396 and the rest of input(), keeping [options.name] *)
  Definition named_input {G} (w : Program) (read_geometry : Toml F -> Res G) (build_geometry : G -> Res (Geometry F)) (t : Toml F)
      : M F (string * (list (ParticleInput F) * Material F * Options F * OutputUnits F)) :=
    do! r := mlift (read_file (pg_parse w) read_geometry build_geometry t) in
    do! x := input (mkFeatures (pg_cpr w) None) (pg_normal_ok w) (snd r) in
    mret (fst r, x).
  (** geometry.rs 95-100 etc.: T::new as a [Geometry] *)
  Definition built {G G'} (new : G -> Res G') (geometry : G' -> Geometry F) (i : G) : Res (Geometry F) :=
    let! g := new i in Ok (geometry g).
  (** main.rs 90-131: the instance of input::<T> that the geometry type selects *)
  Definition read_input (w : Program) (g : GeometryType) (t : Toml F)
      : M F (string * (list (ParticleInput F) * Material F * Options F * OutputUnits F)) :=
    match g with
    | G_MESH0D => named_input w (read_mesh0d (pg_parse w)) (built mesh0d_new mesh0d_geometry) t
    | G_MESH1D => named_input w (read_mesh1d (pg_parse w)) (built mesh1d_new mesh1d_geometry) t
    | G_MESH2D => named_input w (read_mesh2d (pg_parse w)) (built (mesh2d_new (pg_polygon w)) mesh2d_geometry) t
    | G_SPHERE => named_input w (read_sphere (pg_parse w)) (built sphere_new sphere_geometry) t
    | G_BALL => named_input w (read_sphere (pg_parse w)) (built (parryball_new (pg_ball w)) parryball_geometry) t
    | G_TRIMESH => named_input w (read_trimesh (pg_parse w)) (built (parrytrimesh_new (pg_mesh w)) parrytrimesh_geometry) t
    | G_HOMOGENEOUS2D => named_input w (read_homogeneous2d (pg_parse w)) (built (homogeneous2d_new (pg_polygon w)) homogeneous2d_geometry) t
    end.

  (** output.rs 264, 272, 280, 288, 296, 304, 312, in the order of opening *)
  Definition list_files : list File := [Reflected; Sputtered; Deposited; Trajectories; TrajectoryData; Displacements; EnergyLosses].
  (** output.rs 265, 274, 283, 292, 301, 310, 319: the second half of the file names *)
  Definition suffix (f : File) : string :=
    match f with
    | Reflected => "reflected.output" | Sputtered => "sputtered.output" | Deposited => "deposited.output"
    | Trajectories => "trajectories.output" | TrajectoryData => "trajectory_data.output"
    | Displacements => "displacements.output" | EnergyLosses => "energy_loss.output"
    end.
  (** output.rs 265: [format!("{}{}", options.name, "reflected.output")] *)
  Definition list_path (name : string) (f : File) : string := name ++ suffix f.
  (** output.rs 209 *)
  Definition summary_path (name : string) : string := name ++ "summary.output".
  (** one file changes (output.rs 204-209, 262-330, 343-408) *)
  Definition put (path : string) (c : Content) (fs : FileSystem) : FileSystem :=
    fun q => if String.eqb path q then Some c else fs q.
  (** output.rs 205-209, 262-330: created, or emptied, one after the other; physics.rs 11, 13: the lists, then the summary *)
  Fixpoint truncated (paths : list string) (fs : FileSystem) : FileSystem :=
    match paths with
    | [] => fs
    | p :: paths' => truncated paths' (put p (Rows []) fs)
    end.
  Definition output_paths (name : string) : list string := (map (list_path name) list_files ++ [summary_path name])%list.
  (** the seven list files (output.rs 343-408) and the summary (output.rs 223-233) hold these rows *)
  Fixpoint put_lists (name : string) (fl : list File) (rows : File -> list (Row F)) (fs : FileSystem) : FileSystem :=
    match fl with
    | [] => fs
    | f :: fl' => put_lists name fl' rows (put (list_path name f) (Rows (rows f)) fs)
    end.
  Definition with_output (name : string) (rows : File -> list (Row F)) (summary : list (Row F)) (fs : FileSystem) : FileSystem :=
    put (summary_path name) (Rows summary) (put_lists name list_files rows fs).
  (** output.rs 227-231 *)
  Definition summary_row (q : F * nat * nat * nat) : Row F := let '(m, r, sp, d) := q in [CF m; CN r; CN sp; CN d].

  (** physics.rs 33-53: the runner of the number of threads (1: serial; more: any splitting) *)
  Definition runner (w : Program) (mat : Material F) (o : Options F) (schedule : list (Ion F) -> Split (Ion F))
      (chunk : list (Ion F)) : Res (list (Particle F)) :=
    if Nat.ltb 1 (o_num_threads o) then run_chunk_parallel (pg_build w) mat o (pg_fuel w) (schedule chunk)
    else run_chunk_serial (pg_build w) mat o (pg_fuel w) chunk.

  (** physics.rs 29-70: where the loop can be between two chunks: the summary and events so far, the chunks to come *)
  Inductive loop_at (run : list (Ion F) -> Res (list (Particle F))) (o : Options F) (u : OutputUnits F) (ions : list (Ion F))
      : SummaryPerSpecies F -> list (Event F) -> list (list (Ion F)) -> Prop :=
  | loop_start : loop_at run o u ions sps_new [] (chunks (Nat.div (List.length ions) (o_num_chunks o)) ions)
  | loop_chunk s es c cs out s' ev :
      loop_at run o u ions s es (c :: cs) -> run c = Ok out -> process_chunk o u s out = Ok (s', ev) ->
      loop_at run o u ions s' (es ++ ev)%list cs.

  Inductive Outcome : Type := Finished | Died.
  (** main.rs 68-131, physics.rs 3-81.  A run that does not finish has panicked or was killed, by the user
      or by the system; it can be killed anywhere. *)
  Inductive main_run (w : Program) (args : list string) (fs : FileSystem) : Outcome -> FileSystem -> Prop :=
  | bad_arguments :                       (* main.rs 86, 88 *)
      (forall fg, parse_args (pg_parry3d w) args <> Ok fg) -> main_run w args fs Died fs
  | no_input_file file g :                (* input.rs 34, 386-391 *)
      parse_args (pg_parry3d w) args = Ok (file, g) -> (forall t, fs file <> Some (Document t)) -> main_run w args fs Died fs
  | input_rejected file g t :             (* input.rs 377-685 *)
      parse_args (pg_parry3d w) args = Ok (file, g) -> fs file = Some (Document t) ->
      (forall r, read_input w g t (pg_rng w) 0 <> Ok r) -> main_run w args fs Died fs
  | killed_before_output :
      main_run w args fs Died fs
  | no_chunks file g t name ps mat o u n :     (* physics.rs 8 *)
      parse_args (pg_parry3d w) args = Ok (file, g) -> fs file = Some (Document t) ->
      read_input w g t (pg_rng w) 0 = Ok ((name, (ps, mat, o, u)), n) ->
      Nat.div (List.length ps) (o_num_chunks o) = 0 -> main_run w args fs Died fs
  | died_opening file g t name ps mat o u n k :     (* physics.rs 11, 13 *)
      parse_args (pg_parry3d w) args = Ok (file, g) -> fs file = Some (Document t) ->
      read_input w g t (pg_rng w) 0 = Ok ((name, (ps, mat, o, u)), n) ->
      0 < Nat.div (List.length ps) (o_num_chunks o) ->
      main_run w args fs Died (truncated (firstn k (output_paths name)) fs)
  | died_running file g t name ps mat o u n ions schedule s es c cs written later st saved :     (* physics.rs 29-70 *)
      parse_args (pg_parry3d w) args = Ok (file, g) -> fs file = Some (Document t) ->
      read_input w g t (pg_rng w) 0 = Ok ((name, (ps, mat, o, u)), n) ->
      0 < Nat.div (List.length ps) (o_num_chunks o) ->
      map (@ion_input F) ions = ps -> (forall chunk, split_leaves (schedule chunk) = chunk) ->
      loop_at (runner w mat o schedule) o u ions s es (c :: cs) ->
      (written = [] \/
       exists out s' ev, runner w mat o schedule c = Ok out /\ process_chunk o u s out = Ok (s', ev) /\ ev = (written ++ later)%list) ->
      run_events open_output_lists (es ++ written)%list st ->
      (** the streams may be written out when they are dropped *)
      (forall f, exists lost, (on_disk (st f) ++ in_buffer (st f) = saved f ++ lost)%list /\ exists more, (saved f = on_disk (st f) ++ more)%list) ->
      main_run w args fs Died (with_output name saved [] fs)
  | died_at_the_end file g t name ps mat o u n ions schedule s es st saved k :     (* physics.rs 72-81 *)
      parse_args (pg_parry3d w) args = Ok (file, g) -> fs file = Some (Document t) ->
      read_input w g t (pg_rng w) 0 = Ok ((name, (ps, mat, o, u)), n) ->
      0 < Nat.div (List.length ps) (o_num_chunks o) ->
      map (@ion_input F) ions = ps -> (forall chunk, split_leaves (schedule chunk) = chunk) ->
      loop_at (runner w mat o schedule) o u ions s es [] ->
      run_events open_output_lists es st ->
      (forall f, exists lost, (on_disk (st f) ++ in_buffer (st f) = saved f ++ lost)%list /\ exists more, (saved f = on_disk (st f) ++ more)%list) ->
      main_run w args fs Died (with_output name saved (firstn k (map summary_row (sps_print s u))) fs)
  | finished file g t name ps mat o u n ions schedule s es st :     (* physics.rs 72-81; the streams are written out when dropped *)
      parse_args (pg_parry3d w) args = Ok (file, g) -> fs file = Some (Document t) ->
      read_input w g t (pg_rng w) 0 = Ok ((name, (ps, mat, o, u)), n) ->
      0 < Nat.div (List.length ps) (o_num_chunks o) ->
      map (@ion_input F) ions = ps -> (forall chunk, split_leaves (schedule chunk) = chunk) ->
      loop_at (runner w mat o schedule) o u ions s es [] ->
      run_events open_output_lists es st ->
      main_run w args fs Finished
        (with_output name (fun f => on_disk (st f) ++ in_buffer (st f))%list (map summary_row (sps_print s u)) fs).
End Main.
Arguments Content F : clear implicits.
Arguments FileSystem F : clear implicits.
Arguments Program F : clear implicits.
