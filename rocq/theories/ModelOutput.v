(** * ModelOutput.v - output.rs *)
From Coq Require Import ZArith List Bool.
From Verif Require Import Num ModelTypes ModelConsts ModelParticle.
Import ListNotations.
Open Scope Z_scope.
Open Scope num_scope.

Section Output.
  Context {F : Type} {NF : Num F}.

  (** output.rs 10-21 *)
  Definition energy_angle_from_particle (p : Particle F) (units : OutputUnits F) : F * F :=
    let energy := p_E p /! ou_energy_unit units in
    let ux := vx (p_dir p) in
    let uy := vy (p_dir p) in
    let uz := vz (p_dir p) in
    let vyz := nsqrt (npowi uy 2 +! npowi uz 2) in
    let angle := natan2 vyz (-! ux) *! nZ 180 /! npi in
    (energy, angle).

  (** ** Simulation-wide summary: output.rs 167-192 *)
  Record Summary : Type := mkSummary { su_num_incident : nat; su_num_sputtered : nat; su_num_reflected : nat }.
  (** output.rs 176-182 *)
  Definition summary_new (num_incident : nat) : Summary := mkSummary num_incident 0 0.
  (** output.rs 184-191 *)
  Definition summary_add (s : Summary) (p : Particle F) : Summary :=
    let s := if p_incident p && p_left p
             then mkSummary (su_num_incident s) (su_num_sputtered s) (S (su_num_reflected s)) else s in
    if negb (p_incident p) && p_left p
    then mkSummary (su_num_incident s) (S (su_num_sputtered s)) (su_num_reflected s) else s.

  (** ** Per-species summary: output.rs 194-257.  The four parallel vectors. *)
  Record SummaryPerSpecies : Type := mkSPS {
    sp_m : list F; sp_sputtered : list nat; sp_reflected : list nat; sp_deposited : list nat }.
  (** output.rs 203-221 *)
  Definition sps_new : SummaryPerSpecies := mkSPS [] [] [] [].
  (** output.rs 239: [self.m.iter().position(|m| *m == particle.m)] *)
  Fixpoint position_eq (ms : list F) (m : F) : option nat :=
    match ms with
    | [] => None
    | m' :: ms' => if m' ==! m then Some 0%nat else option_map S (position_eq ms' m)
    end.
  (** [v[index] += 1] (output.rs 97, 103, 125-131, 242-244) *)
  Fixpoint increment (v : list nat) (index : nat) : Res (list nat) :=
    match v, index with
    | [], _ => Panic IndexOOB
    | n :: v', O => Ok (S n :: v')
    | n :: v', S i => let! w := increment v' i in Ok (n :: w)
    end.
  (** output.rs 235-256 *)
  Definition sps_update (s : SummaryPerSpecies) (p : Particle F) : Res SummaryPerSpecies :=
    if existsb (fun m => m ==! p_m p) (sp_m s) then
      match position_eq (sp_m s) (p_m p) with
      | None => Panic UnwrapNone
      | Some index =>
          match p_incident p, p_left p with
          | true, true => let! v := increment (sp_reflected s) index in
                          Ok (mkSPS (sp_m s) (sp_sputtered s) v (sp_deposited s))
          | true, false => let! v := increment (sp_deposited s) index in
                           Ok (mkSPS (sp_m s) (sp_sputtered s) (sp_reflected s) v)
          | false, true => let! v := increment (sp_sputtered s) index in
                           Ok (mkSPS (sp_m s) v (sp_reflected s) (sp_deposited s))
          | false, false => Ok s
          end
      end
    else
      let '(r, d, sp) :=
        match p_incident p, p_left p with
        | true, true => (1, 0, 0)%nat
        | true, false => (0, 1, 0)%nat
        | false, true => (0, 0, 1)%nat
        | false, false => (0, 0, 0)%nat
        end in
      Ok (mkSPS (sp_m s ++ [p_m p]) (sp_sputtered s ++ [sp]) (sp_reflected s ++ [r]) (sp_deposited s ++ [d])).
  (** output.rs 223-233: the rows printed to summary.output (mass, reflected,
      sputtered, deposited); [izip!] stops at the shortest vector *)
  Definition sps_print (s : SummaryPerSpecies) (units : OutputUnits F) : list (F * nat * nat * nat) :=
    map (fun q => let '(m, (r, (sp, d))) := q in (m /! ou_mass_unit units, r, sp, d))
        (zip (sp_m s) (zip (sp_reflected s) (zip (sp_sputtered s) (sp_deposited s)))).

  (** ** List output.  A row is the list of its fields; formatting of numbers
      as text is not modelled.  output.rs 156-165 *)
  Inductive File : Type :=
  | Reflected | Sputtered | Deposited | Trajectories | TrajectoryData | Displacements | EnergyLosses.
  Inductive Cell : Type := CF (v : F) | CN (n : nat).
  Definition Row : Type := list Cell.
  (** what the program does to its streams: the [writeln!]s of output.rs 343-408
      and the [flush]es of output.rs 413-418 *)
  Inductive Event : Type := Write (f : File) (r : Row) | Flush (f : File).

  (** output.rs 337-409 *)
  Definition output_lists (options : Options F) (units : OutputUnits F) (p : Particle F) : list Event :=
    let length_unit := ou_length_unit units in
    let energy_unit := ou_energy_unit units in
    let mass_unit := ou_mass_unit units in
    let position (v : Vector F) := [CF (vx v /! length_unit); CF (vy v /! length_unit); CF (vz v /! length_unit)] in
    let direction (v : Vector F) := [CF (vx v); CF (vy v); CF (vz v)] in
    (if negb (p_incident p) && o_track_displacements options && (p_energy_origin p >! p_Ed p) then
       [Write Displacements ([CF (p_m p /! mass_unit); CF (p_Z p); CF (p_energy_origin p /! energy_unit)]
                             ++ position (p_pos_origin p) ++ position (p_pos p))]
     else [])
    ++ (if p_incident p && p_left p then
          [Write Reflected ([CF (p_m p /! mass_unit); CF (p_Z p); CF (p_E p /! energy_unit)]
                            ++ position (p_pos p) ++ direction (p_dir p) ++ [CN (p_number_collision_events p)])]
        else [])
    ++ (if p_incident p && p_stopped p then
          [Write Deposited ([CF (p_m p /! mass_unit); CF (p_Z p)] ++ position (p_pos p)
                            ++ [CN (p_number_collision_events p)])]
        else [])
    ++ (if negb (p_incident p) && p_left p then
          [Write Sputtered ([CF (p_m p /! mass_unit); CF (p_Z p); CF (p_E p /! energy_unit)]
                            ++ position (p_pos p) ++ direction (p_dir p) ++ [CN (p_number_collision_events p)]
                            ++ position (p_pos_origin p))]
        else [])
    ++ (if p_track_trajectories p then
          Write TrajectoryData [CN (length (p_trajectory p))]
          :: map (fun pos => Write Trajectories
                    [CF (p_m p /! mass_unit); CF (p_Z p); CF (te_E pos /! energy_unit);
                     CF (te_x pos /! length_unit); CF (te_y pos /! length_unit); CF (te_z pos /! length_unit)])
                 (p_trajectory p)
        else [])
    ++ (if p_incident p && o_track_energy_losses options then
          map (fun el => Write EnergyLosses
                 [CF (p_m p /! mass_unit); CF (p_Z p); CF (el_En el /! energy_unit); CF (el_Ee el /! energy_unit);
                  CF (el_x el /! length_unit); CF (el_y el /! length_unit); CF (el_z el /! length_unit)])
              (p_energies p)
        else []).

  (** output.rs 411-419: six of the seven streams *)
  Definition output_list_flush : list Event :=
    [Flush Displacements; Flush Reflected; Flush Deposited; Flush Sputtered; Flush TrajectoryData; Flush Trajectories].

  (** ** Buffered writers (output.rs 157-165, 269-323).  std::io::BufWriter: rows not yet written to the file
      are lost if the process is killed; the writer may write out any part of
      its buffer at any write.  Rows are atomic here: a row split between file
      and buffer is not modelled. *)
  Record StreamState : Type := mkStream { on_disk : list Row; in_buffer : list Row }.
  (** output.rs 157-165 *)
  Definition Streams : Type := File -> StreamState.
  (** equality of the seven files of output.rs 157-165 *)
  Definition File_eqb (a b : File) : bool :=
    match a, b with
    | Reflected, Reflected | Sputtered, Sputtered | Deposited, Deposited
    | Trajectories, Trajectories | TrajectoryData, TrajectoryData
    | Displacements, Displacements | EnergyLosses, EnergyLosses => true
    | _, _ => false
    end.
  (** bookkeeping: one of the streams of output.rs 157-165 changes *)
  Definition upd_stream (s : Streams) (f : File) (st : StreamState) : Streams :=
    fun g => if File_eqb f g then st else s g.
  (** output.rs 260-334: files are created empty *)
  Definition open_output_lists : Streams := fun _ => mkStream [] [].
  (** One event (output.rs 343-408, 413-418).  [spilled] rows at the front of
      the buffer reach the disk. *)
  Inductive step_event : Streams -> Event -> Streams -> Prop :=
  | step_write s f r spilled kept :
      in_buffer (s f) ++ [r] = spilled ++ kept ->
      step_event s (Write f r) (upd_stream s f (mkStream (on_disk (s f) ++ spilled) kept))
  | step_flush s f :
      step_event s (Flush f) (upd_stream s f (mkStream (on_disk (s f) ++ in_buffer (s f)) [])).
  (** the events of output.rs 343-418 in order *)
  Inductive run_events : Streams -> list Event -> Streams -> Prop :=
  | run_nil s : run_events s [] s
  | run_cons s e s' es s'' : step_event s e s' -> run_events s' es s'' -> run_events s (e :: es) s''.

  (** ** Histograms (feature "distributions"): output.rs 29-153 *)
  (** the histogram options: input.rs 318-333 *)
  Record DistOptions : Type := mkDistOptions {
    d_energy_min : F; d_energy_max : F; d_energy_num : nat;
    d_angle_min : F; d_angle_max : F; d_angle_num : nat;
    d_x_min : F; d_x_max : F; d_x_num : nat;
    d_y_min : F; d_y_max : F; d_y_num : nat;
    d_z_min : F; d_z_max : F; d_z_num : nat }.
  Record Distributions : Type := mkDistributions {
    di_energies : list F; di_angles : list F; di_x_range : list F; di_y_range : list F; di_z_range : list F;
    di_reflected_ead : list (list nat); di_sputtered_ead : list (list nat);
    di_implanted_x : list nat; di_implanted_y : list nat; di_implanted_z : list nat;
    di_electronic_energy_loss_x : list F; di_nuclear_energy_loss_x : list F }.
  (** ndarray 0.14 [Array::linspace] (external; used at output.rs 51-55): start + step * i, step = (end - start)/(n-1) *)
  Definition linspace (a b : F) (n : nat) : list F :=
    let step := match n with
                | O | S O => nZ 0
                | _ => (b -! a) /! nnat (n - 1)
                end in
    map (fun i => a +! step *! nnat i) (seq 0 n).
  (** output.rs 49-64 *)
  Definition distributions_new (d : DistOptions) : Distributions :=
    {| di_energies := linspace (d_energy_min d) (d_energy_max d) (d_energy_num d);
       di_angles := linspace (d_angle_min d) (d_angle_max d) (d_angle_num d);
       di_x_range := linspace (d_x_min d) (d_x_max d) (d_x_num d);
       di_y_range := linspace (d_y_min d) (d_y_max d) (d_y_num d);
       di_z_range := linspace (d_z_min d) (d_z_max d) (d_z_num d);
       di_reflected_ead := repeat (repeat 0%nat (d_angle_num d)) (d_energy_num d);
       di_sputtered_ead := repeat (repeat 0%nat (d_angle_num d)) (d_energy_num d);
       di_implanted_x := repeat 0%nat (d_x_num d);
       di_implanted_y := repeat 0%nat (d_y_num d);
       di_implanted_z := repeat 0%nat (d_z_num d);
       di_electronic_energy_loss_x := repeat (nZ 0) (d_x_num d);
       di_nuclear_energy_loss_x := repeat (nZ 0) (d_x_num d) |}.
  (** output.rs 86-90, 112-118, 139: [self.range[1] - self.range[0]] and [self.range[0]] *)
  Definition axis (range : list F) : Res (F * F) :=
    let! r1 := idx range 1 in
    let! r0 := idx range 0 in
    Ok (r0, r1 -! r0).
  (** output.rs 86-90: bin of an energy or angle (with floor) *)
  Definition bin_floor (range : list F) (v : F) : Res Z :=
    let! (r0, delta) := axis range in
    Ok (nto_i32 (nfloor ((v -! r0) /! delta))).
  (** output.rs 112-118, 144: bin of a position (cast without floor) *)
  Definition bin_cast (range : list F) (v : F) : Res Z :=
    let! (r0, delta) := axis range in
    Ok (nto_i32 ((v -! r0) /! delta)).
  (** output.rs 92-93, 120-122, 145 ([len as i32] is exact below 2^31 bins) *)
  Definition in_bins (index : Z) (n : nat) : bool := Z.leb 0 index && Z.ltb index (Z.of_nat n).
  (** [a[i] += v] on an ndarray (output.rs 148-149) *)
  Fixpoint add_at (v : list F) (index : nat) (d : F) : Res (list F) :=
    match v, index with
    | [], _ => Panic IndexOOB
    | n :: v', O => Ok ((n +! d) :: v')
    | n :: v', S i => let! w := add_at v' i d in Ok (n :: w)
    end.
  (** [a[[i, j]] += 1] on an ndarray (output.rs 97, 103) *)
  Fixpoint increment2 (v : list (list nat)) (i j : nat) : Res (list (list nat)) :=
    match v, i with
    | [], _ => Panic IndexOOB
    | r :: v', O => let! r' := increment r j in Ok (r' :: v')
    | r :: v', S i => let! w := increment2 v' i j in Ok (r :: w)
    end.
  (** output.rs 124-132: guarded increment *)
  Definition count_in (v : list nat) (index : Z) (n : nat) : Res (list nat) :=
    if in_bins index n then increment v (Z.to_nat index) else Ok v.
  (** output.rs 137-151: one energy-loss record *)
  Definition add_loss (units : OutputUnits F) (num_incident : nat) (d : Distributions) (el : EnergyLoss F) : Res Distributions :=
    let x := el_x el /! ou_length_unit units in
    let! (r0, delta_x) := axis (di_x_range d) in
    let electronic := el_Ee el /! ou_energy_unit units /! nnat num_incident /! delta_x in
    let nuclear := el_En el /! ou_energy_unit units /! nnat num_incident /! delta_x in
    let! index := bin_cast (di_x_range d) x in
    if in_bins index (length (di_x_range d)) then
      let! e := add_at (di_electronic_energy_loss_x d) (Z.to_nat index) electronic in
      let! n := add_at (di_nuclear_energy_loss_x d) (Z.to_nat index) nuclear in
      Ok {| di_energies := di_energies d; di_angles := di_angles d; di_x_range := di_x_range d;
            di_y_range := di_y_range d; di_z_range := di_z_range d;
            di_reflected_ead := di_reflected_ead d; di_sputtered_ead := di_sputtered_ead d;
            di_implanted_x := di_implanted_x d; di_implanted_y := di_implanted_y d; di_implanted_z := di_implanted_z d;
            di_electronic_energy_loss_x := e; di_nuclear_energy_loss_x := n |}
    else Ok d.
  Fixpoint add_losses (units : OutputUnits F) (num_incident : nat) (d : Distributions) (els : list (EnergyLoss F)) : Res Distributions :=
    match els with
    | [] => Ok d
    | el :: els' => let! d := add_loss units num_incident d el in add_losses units num_incident d els'
    end.
  (** output.rs 83-153 *)
  Definition distributions_update (options : Options F) (units : OutputUnits F) (num_incident : nat)
      (d : Distributions) (p : Particle F) : Res Distributions :=
    let (energy, angle) := energy_angle_from_particle p units in
    let! ei := bin_floor (di_energies d) energy in
    let! ai := bin_floor (di_angles d) angle in
    let inside := in_bins ei (length (di_energies d)) && in_bins ai (length (di_angles d)) in
    let! refl := if p_incident p && p_left p && inside
                 then increment2 (di_reflected_ead d) (Z.to_nat ei) (Z.to_nat ai) else Ok (di_reflected_ead d) in
    let! sput := if negb (p_incident p) && p_left p && inside
                 then increment2 (di_sputtered_ead d) (Z.to_nat ei) (Z.to_nat ai) else Ok (di_sputtered_ead d) in
    let! (ix, iy, iz) :=
      if p_incident p && p_stopped p then
        let! xi := bin_cast (di_x_range d) (vx (p_pos p) /! ou_length_unit units) in
        let! yi := bin_cast (di_y_range d) (vy (p_pos p) /! ou_length_unit units) in
        let! zi := bin_cast (di_z_range d) (vz (p_pos p) /! ou_length_unit units) in
        let! ix := count_in (di_implanted_x d) xi (length (di_x_range d)) in
        let! iy := count_in (di_implanted_y d) yi (length (di_y_range d)) in
        let! iz := count_in (di_implanted_z d) zi (length (di_z_range d)) in
        Ok (ix, iy, iz)
      else Ok (di_implanted_x d, di_implanted_y d, di_implanted_z d) in
    let d := {| di_energies := di_energies d; di_angles := di_angles d; di_x_range := di_x_range d;
                di_y_range := di_y_range d; di_z_range := di_z_range d;
                di_reflected_ead := refl; di_sputtered_ead := sput;
                di_implanted_x := ix; di_implanted_y := iy; di_implanted_z := iz;
                di_electronic_energy_loss_x := di_electronic_energy_loss_x d;
                di_nuclear_energy_loss_x := di_nuclear_energy_loss_x d |} in
    if o_track_energy_losses options && p_incident p then add_losses units num_incident d (p_energies p) else Ok d.
End Output.
Arguments SummaryPerSpecies F : clear implicits.
Arguments Cell F : clear implicits.
Arguments Row F : clear implicits.
Arguments Event F : clear implicits.
Arguments StreamState F : clear implicits.
Arguments Streams F : clear implicits.
Arguments DistOptions F : clear implicits.
Arguments Distributions F : clear implicits.
