(** * SpecValid.v - which input files the program accepts, in the words of the manual *)
From Coq Require Import ZArith List Bool Arith.
From Verif Require Import Num ModelTypes ModelGeometry ModelMaterial ModelInput.
Import ListNotations.
Open Scope nat_scope.

Section Valid.
  Context {F : Type} {NF : Num F}.
  (** a unit is one of the known names or a number *)
  Definition known_length (u : LengthUnit F) : Prop := u <> LU_other None.
  Definition known_energy (u : EnergyUnit F) : Prop := u <> EU_other None.
  Definition known_mass (u : MassUnit F) : Prop := u <> MU_other None.

  (** ** the options *)
  (** polynomial and Chebyshev root finders come with the feature cpr_rootfinder *)
  Definition available (cpr : bool) (rf : Rootfinder F) : Prop :=
    match rf with POLYNOMIAL _ | CPR _ _ _ _ _ _ _ _ => cpr = true | NEWTON _ _ | DEFAULTNEWTON => True end.
  (** attractive-repulsive potentials may have several roots: no Newton for
      Lennard-Jones and Morse; only inverse powers become polynomials *)
  Definition suits (ip : InteractionPotential F) (rf : Rootfinder F) : Prop :=
    match rf with
    | CPR _ _ _ _ _ _ _ _ => True
    | POLYNOMIAL _ => match ip with LENNARD_JONES_12_6 _ _ | LENNARD_JONES_65_6 _ _ | FOUR_EIGHT _ _ => True | _ => False end
    | NEWTON _ _ | DEFAULTNEWTON => match ip with LENNARD_JONES_12_6 _ _ | LENNARD_JONES_65_6 _ _ | MORSE _ _ _ => False | _ => True end
    end.
  Definition entry {A} (t : list (list A)) (i j : nat) (a : A) : Prop := exists r, nth_error t i = Some r /\ nth_error r j = Some a.
  (** row i exists and is as long as the table is high *)
  Definition square_row {A} (t : list (list A)) (i : nat) : Prop := exists r, nth_error t i = Some r /\ length r = length t.
  Record consistent_options (cpr : bool) (o : Options F) : Prop := {
    co_threads : 0 < o_num_threads o;
    co_chunks : 0 < o_num_chunks o;
    co_free_flight : o_high_energy_free_flight_paths o = true -> o_electronic_stopping_mode o = INTERPOLATED /\ o_weak_collision_order o = 0;
    co_gaseous : o_mean_free_path_model o = GASEOUS -> o_weak_collision_order o = 0;
    co_tables : forall i, i < length (o_interaction_potential o) ->
      square_row (o_interaction_potential o) i /\ square_row (o_scattering_integral o) i /\ square_row (o_root_finder o) i;
    co_pairs : forall i j ip si rf, entry (o_interaction_potential o) i j ip -> entry (o_scattering_integral o) i j si ->
      entry (o_root_finder o) i j rf -> available cpr rf /\ suits ip rf }.

  (** interaction indices: one or none given means 0 for all [n]; otherwise those given *)
  Definition indices_in_range (given : list nat) (n rows : nat) : Prop :=
    (length given <= 1 -> 0 < n /\ 0 < rows) /\ (2 <= length given -> Forall (fun i => i < rows) given).

  (** ** the material *)
  Record consistent_material (p : MaterialParameters F) (rows : nat) : Prop := {
    cm_energy : known_energy (mp_energy_unit p);
    cm_mass : known_mass (mp_mass_unit p);
    cm_Z : length (mp_Z p) = length (mp_m p);
    cm_Eb : length (mp_Eb p) = length (mp_m p);
    cm_Es : length (mp_Es p) = length (mp_m p);
    cm_Ed : mp_Ed p <> [];
    cm_index : indices_in_range (mp_interaction_index p) (length (mp_m p)) rows }.

  (** ** the particles *)
  Definition drawable (normal_ok : F -> bool) (d : Dist F) : Prop :=
    match d with POINT _ => True | NORMAL _ std => normal_ok std = true | UNIFORM min max => nlt min max = true end.
  Definition triple (P : Dist F -> Prop) (d : Dist F * Dist F * Dist F) : Prop := let '(x, y, z) := d in P x /\ P y /\ P z.
  Definition not_along_x (d : Dist F * Dist F * Dist F) : Prop :=
    match d with (POINT v, _, _) => neqb v (nZ 1%Z) = false | _ => True end.
  (** entry i of the particle section *)
  Definition consistent_entry (normal_ok : F -> bool) (pp : ParticleParameters F) (i : nat) : Prop :=
    exists N E pos dir,
      nth_error (pp_N pp) i = Some N /\ i < length (pp_Ec pp) /\ i < length (pp_Es pp) /\
      (2 <= length (pp_interaction_index pp) -> i < length (pp_interaction_index pp)) /\
      nth_error (pp_E pp) i = Some E /\ nth_error (pp_pos pp) i = Some pos /\ nth_error (pp_dir pp) i = Some dir /\
      (0 < N -> drawable normal_ok E /\ triple (drawable normal_ok) pos /\ triple (drawable normal_ok) dir /\ not_along_x dir).
  Record consistent_particles (pp : ParticleParameters F) (rows : nat) : Prop := {
    cp_length : known_length (pp_length_unit pp);
    cp_energy : known_energy (pp_energy_unit pp);
    cp_mass : known_mass (pp_mass_unit pp);
    cp_m : length (pp_m pp) = length (pp_Z pp);
    cp_E : length (pp_E pp) = length (pp_Z pp);
    cp_pos : length (pp_pos pp) = length (pp_Z pp);
    cp_dir : length (pp_dir pp) = length (pp_Z pp);
    cp_index : indices_in_range (pp_interaction_index pp) (length (pp_Z pp)) rows }.

  Definition consistent_file (ft : Features F) (normal_ok : F -> bool) (inp : InputData F) : Prop :=
    let o := in_options inp in
    let rows := length (o_interaction_potential o) in
    consistent_options (ft_cpr ft) o /\
    (exists g, in_geometry inp = Ok g) /\
    consistent_material (in_material inp) rows /\
    consistent_particles (in_particle inp) rows /\
    (if o_use_hdf5 o then exists file, ft_hdf5 ft = Some (Ok file)
     else forall i, i < length (pp_Z (in_particle inp)) -> consistent_entry normal_ok (in_particle inp) i).
End Valid.
