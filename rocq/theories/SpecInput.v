(** * SpecInput.v - vocabulary of the statements about the input file *)
From Coq Require Import ZArith List Bool.
From Verif Require Import Num ModelTypes ModelGeometry ModelMaterial ModelInput.
Import ListNotations.

Section SpecInput.
  Context {F : Type} {NF : Num F}.

  (** [v] is a value described by [d]: the stated value, or one computed from a
      number of the random stream *)
  Definition drawn (rng : Rng F) (d : Dist F) (v : F) : Prop :=
    match d with
    | POINT x => v = x
    | UNIFORM a b => nlt a b = true /\ exists k, v = nadd a (nmul (nsub b a) (rng k))
    | NORMAL mean std => exists k, v = nadd mean (nmul std (rng k))
    end.
  Definition drawn_in_unit (rng : Rng F) (d : Dist F) (unit_ v : F) : Prop := exists w, drawn rng d w /\ v = nmul w unit_.
  (** [p] is a particle of the input entry with the given values, in the given units *)
  Definition particle_of_entry (hdf5 : bool) (length_unit energy_unit mass_unit : F) (rng : Rng F)
      (m Z : F) (E : Dist F) (Ec Es : F) (index : nat) (pos dir : Dist F * Dist F * Dist F) (p : ParticleInput F) : Prop :=
    let '(x, y, z) := pos in
    let '(cosx, cosy, cosz) := dir in
    pi_m p = nmul m mass_unit /\ pi_Z p = Z /\ drawn_in_unit rng E energy_unit (pi_E p) /\
    pi_Ec p = nmul Ec energy_unit /\ pi_Es p = nmul Es energy_unit /\
    drawn_in_unit rng x length_unit (pi_x p) /\ drawn_in_unit rng y length_unit (pi_y p) /\ drawn_in_unit rng z length_unit (pi_z p) /\
    (* directions: see C73 *)
    (exists w, drawn rng cosx w /\ (pi_ux p = nmul w length_unit \/ (hdf5 = true /\ pi_ux p = w))) /\
    (exists w, drawn rng cosy w /\ (pi_uy p = nmul w length_unit \/ (hdf5 = true /\ pi_uy p = w))) /\
    (exists w, drawn rng cosz w /\ (pi_uz p = nmul w length_unit \/ (hdf5 = true /\ pi_uz p = w))) /\
    pi_interaction_index p = index /\ pi_weight p = nZ 1 /\ pi_tag p = 0%Z.

  (** combinations of potential, scattering integral and root finder that the
      manual documents as working and that need no Chebyshev root finder *)
  Definition gauss (si : ScatteringIntegral) : Prop :=
    match si with GAUSS_MEHLER _ | GAUSS_LEGENDRE => True | _ => False end.
  Definition polynomial (rf : Rootfinder F) : Prop := match rf with POLYNOMIAL _ => True | _ => False end.
  Definition chebyshev (rf : Rootfinder F) : Prop := match rf with CPR _ _ _ _ _ _ _ _ => True | _ => False end.
  Definition newton (rf : Rootfinder F) : Prop :=
    match rf with NEWTON (S _) _ | DEFAULTNEWTON => True | _ => False end.
  Definition implemented (ip : InteractionPotential F) (si : ScatteringIntegral) (rf : Rootfinder F) : Prop :=
    match ip with
    | MOLIERE | KR_C | ZBL | TRIDYN => ~ chebyshev rf
    | LENZ_JENSEN => ~ chebyshev rf /\ si <> MAGIC
    | COULOMB _ _ => gauss si
    | LENNARD_JONES_12_6 _ _ | LENNARD_JONES_65_6 _ _ | FOUR_EIGHT _ _ => gauss si /\ polynomial rf
    | _ => False
    end.

  (** the same input file with one entry replaced *)
  Definition with_material (mp : MaterialParameters F) (inp : InputData F) : InputData F :=
    mkInput (in_options inp) (in_particle inp) mp (in_geometry inp).
  Definition with_particles (pp : ParticleParameters F) (inp : InputData F) : InputData F :=
    mkInput (in_options inp) pp (in_material inp) (in_geometry inp).
  Definition replace_Ec (l : list F) (p : MaterialParameters F) : MaterialParameters F :=
    mkMaterialParameters (mp_energy_unit p) (mp_mass_unit p) (mp_Eb p) (mp_Es p) l (mp_Ed p) (mp_Z p) (mp_m p)
      (mp_interaction_index p) (mp_surface_binding_model p) (mp_bulk_binding_model p).
  Definition replace_Ed (l : list F) (p : MaterialParameters F) : MaterialParameters F :=
    mkMaterialParameters (mp_energy_unit p) (mp_mass_unit p) (mp_Eb p) (mp_Es p) (mp_Ec p) l (mp_Z p) (mp_m p)
      (mp_interaction_index p) (mp_surface_binding_model p) (mp_bulk_binding_model p).
  Definition replace_interaction_index (l : list nat) (p : MaterialParameters F) : MaterialParameters F :=
    mkMaterialParameters (mp_energy_unit p) (mp_mass_unit p) (mp_Eb p) (mp_Es p) (mp_Ec p) (mp_Ed p) (mp_Z p) (mp_m p)
      l (mp_surface_binding_model p) (mp_bulk_binding_model p).
  Definition replace_length_unit (u : LengthUnit F) (p : ParticleParameters F) : ParticleParameters F :=
    mkParticleParameters u (pp_energy_unit p) (pp_mass_unit p) (pp_N p) (pp_m p) (pp_Z p) (pp_E p) (pp_Ec p) (pp_Es p)
      (pp_pos p) (pp_dir p) (pp_interaction_index p).
End SpecInput.
