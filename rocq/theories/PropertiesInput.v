(** * PropertiesInput.v - C49..C53, C61, C73, C80: what input() accepts and what it makes of it *)
From Coq Require Import ZArith List Bool Lia Reals Lra Floats.SpecFloat.
From Verif Require Import Num NumSF ModelTypes ModelConsts ModelParticle ModelInteractions ModelGeometry ModelMaterial
  ModelBca ModelInput ProofsBase SpecInput ProofsInput NumR Toy.
Import ListNotations.
Open Scope nat_scope.

(** a complete, accepted input in binary64: one species, one 100 eV ion entry (two ions) *)
Definition toy_dir : Dist spec_float * Dist spec_float * Dist spec_float :=
  (POINT (nlit 5 (-1)), NORMAL (nlit 5 (-1)) (nZ 0), POINT (nZ 0)).
Definition toy_entry (index : list nat) (lu : LengthUnit spec_float) : ParticleParameters spec_float :=
  {| pp_length_unit := lu; pp_energy_unit := EU_EV; pp_mass_unit := MU_AMU; pp_N := [2]; pp_m := [nZ 4]; pp_Z := [nZ 2];
     pp_E := [POINT (nZ 100)]; pp_Ec := [nZ 1]; pp_Es := [nZ 0];
     pp_pos := [(POINT (nZ (-1)), UNIFORM (nZ 0) (nZ 1), POINT (nZ 0))]; pp_dir := [toy_dir]; pp_interaction_index := index |}.
Definition toy_mp : MaterialParameters spec_float :=
  {| mp_energy_unit := EU_EV; mp_mass_unit := MU_AMU; mp_Eb := [nZ 0]; mp_Es := [nZ 2]; mp_Ec := [nZ 1]; mp_Ed := [nZ 25];
     mp_Z := [nZ 29]; mp_m := [nZ 63]; mp_interaction_index := [0]; mp_surface_binding_model := SBM_TARGET; mp_bulk_binding_model := BBM_AVERAGE |}.
Definition toy_table (ip : InteractionPotential spec_float) (si : ScatteringIntegral) (rf : Rootfinder spec_float) (hdf5 : bool) : Options spec_float :=
  {| o_track_trajectories := false; o_track_recoils := true; o_track_recoil_trajectories := false;
     o_write_buffer_size := 8; o_weak_collision_order := 0; o_suppress_deep_recoils := false;
     o_high_energy_free_flight_paths := false; o_electronic_stopping_mode := LOW_ENERGY_NONLOCAL; o_mean_free_path_model := LIQUID;
     o_interaction_potential := [[ip]]; o_scattering_integral := [[si]]; o_root_finder := [[rf]];
     o_num_threads := 1; o_num_chunks := 1; o_use_hdf5 := hdf5; o_track_displacements := false; o_track_energy_losses := false |}.
Definition toy_file ip si rf hdf5 lu : InputData spec_float :=
  mkInput (toy_table ip si rf hdf5) (toy_entry [0] lu) toy_mp (Ok (mesh0d_geometry toy_mesh)).
Definition toy_features : Features spec_float := mkFeatures false None.
Definition accepted {F} {NF : Num F} ft normal_ok (inp : InputData F) rng : Prop :=
  exists ps mat o u n', input ft normal_ok inp rng 0 = Ok ((ps, mat, o, u), n').
Ltac accept := unfold accepted; do 5 eexists; vm_compute; reflexivity.

(** ** C49 *)
Theorem C49_lookups_in_range_partial :
  forall {F} {NF : Num F} ft normal_ok (inp : InputData F) rng n ps mat o u n',
    input ft normal_ok inp rng n = Ok ((ps, mat, o, u), n') -> o_use_hdf5 o = false ->
    let indices := map (@pi_interaction_index F) ps ++ mat_interaction_index mat in
    forall i j, In i indices -> In j indices ->
    exists ip si rf, idx2 (o_interaction_potential o) i j = Ok ip /\ idx2 (o_scattering_integral o) i j = Ok si /\ idx2 (o_root_finder o) i j = Ok rf.
Proof. intros F NF ft nok inp rng n ps mat o u n' H Hh indices i j Hi Hj. destruct (accepted_lookups _ _ _ _ _ _ _ _ _ _ i j H Hh Hi Hj) as (ip & si & rf & H1 & H2 & H3 & _). exists ip, si, rf. auto. Qed.
Print Assumptions C49_lookups_in_range_partial.
Example C49_applies : accepted toy_features (fun _ => true) (toy_file KR_C MENDENHALL_WELLER DEFAULTNEWTON false LU_ANGSTROM) toy_rng.
Proof. accept. Qed.

(** particles read from an HDF5 file bring their own interaction index, which nobody checks *)
Definition stray_particle : ParticleInput spec_float :=
  mkPI (nZ 1) (nZ 1) (nZ 1) (nZ 0) (nZ 0) (nZ 0) (nZ 0) (nZ 0) (nZ 0) (nZ 1) (nZ 0) 5 (nZ 1) 0%Z.
Theorem C49_hdf5_refuted :
  exists (inp : InputData spec_float) file p mat o u n',
    input (mkFeatures false (Some (Ok file))) (fun _ => true) inp toy_rng 0 = Ok ((file, mat, o, u), n') /\ In p file /\
    forall j, idx2 (o_interaction_potential o) (pi_interaction_index p) j = Panic IndexOOB.
Proof.
  exists (toy_file KR_C MENDENHALL_WELLER DEFAULTNEWTON true LU_ANGSTROM), [stray_particle], stray_particle.
  do 4 eexists. split; [vm_compute; reflexivity|]. split; [left; reflexivity|]. intros j. reflexivity.
Qed.
Print Assumptions C49_hdf5_refuted.

(** ** C50 *)
Theorem C50_implemented_combinations_partial :
  forall {F} {NF : Num F} (build : Build F) ft normal_ok (inp : InputData F) rng n ps mat o u n',
    input ft normal_ok inp rng n = Ok ((ps, mat, o, u), n') -> o_use_hdf5 o = false -> ft_cpr ft = is_some build ->
    forall (p1 p2 : Particle F) bcg,
      In (p_interaction_index p1) (map (@pi_interaction_index F) ps ++ mat_interaction_index mat) ->
      In (p_interaction_index p2) (map (@pi_interaction_index F) ps ++ mat_interaction_index mat) ->
      (forall ip si rf,
         idx2 (o_interaction_potential o) (p_interaction_index p1) (p_interaction_index p2) = Ok ip ->
         idx2 (o_scattering_integral o) (p_interaction_index p1) (p_interaction_index p2) = Ok si ->
         idx2 (o_root_finder o) (p_interaction_index p1) (p_interaction_index p2) = Ok rf -> implemented ip si rf) ->
      nlt_inf (ndiv (nmul (p_E p1) (p_m p2)) (nadd (p_m p1) (p_m p2))) = true ->
      calculate_binary_collision build p1 p2 bcg o <> Panic ExplicitPanic.
Proof.
  intros F NF build ft nok inp rng n ps mat o u n' H Hh Hb p1 p2 bcg H1 H2 Himp Hinf.
  destruct (accepted_lookups _ _ _ _ _ _ _ _ _ _ _ _ H Hh H1 H2) as (ip & si & rf & L1 & L2 & L3 & Hin & Hall). rewrite Hb in Hin.
  exact (implemented_quiet build p1 p2 bcg o ip si rf L1 L2 L3 Hin Hall (Himp _ _ _ L1 L2 L3) Hinf).
Qed.
Print Assumptions C50_implemented_combinations_partial.
Example C50_applies : implemented (KR_C : InteractionPotential spec_float) MENDENHALL_WELLER DEFAULTNEWTON /\
  accepted toy_features (fun _ => true) (toy_file KR_C MENDENHALL_WELLER DEFAULTNEWTON false LU_ANGSTROM) toy_rng /\
  p_interaction_index toy_ion = 0 /\ nlt_inf (ndiv (nmul (p_E toy_ion) (p_m toy_ion)) (nadd (p_m toy_ion) (p_m toy_ion))) = true.
Proof. split; [intros []|]. split; [accept|]. split; vm_compute; reflexivity. Qed.

(** accepted combinations on which every collision panics: potentials without
    a derivative with the Newton root finder, Coulomb without a Gauss integral *)
Theorem C50_every_collision_panics_refuted :
  forall {F} {NF : Num F} build (p1 p2 : Particle F) bcg o ip si rf,
    idx2 (o_interaction_potential o) (p_interaction_index p1) (p_interaction_index p2) = Ok ip ->
    idx2 (o_scattering_integral o) (p_interaction_index p1) (p_interaction_index p2) = Ok si ->
    idx2 (o_root_finder o) (p_interaction_index p1) (p_interaction_index p2) = Ok rf ->
    match ip with
    | WW | KRC_MORSE _ _ _ _ _ | FOUR_EIGHT _ _ => newton rf
    | COULOMB _ _ => ~ gauss si
    | _ => False
    end ->
    calculate_binary_collision build p1 p2 bcg o = Panic ExplicitPanic.
Proof. intros F NF. exact unimplemented_panics. Qed.
Print Assumptions C50_every_collision_panics_refuted.
Theorem C50_lenz_jensen_magic_refuted :
  forall {F} {NF : Num F} Za Zb Ma Mb E p x0, scattering_angle Za Zb Ma Mb E p x0 (LENZ_JENSEN : InteractionPotential F) MAGIC = Panic ExplicitPanic.
Proof. intros F NF. exact lenz_jensen_magic. Qed.
Print Assumptions C50_lenz_jensen_magic_refuted.
Theorem C50_unimplemented_accepted_refuted :
  forall si ip rf, In (ip, rf) [(WW, DEFAULTNEWTON); (KRC_MORSE (nZ 1) (nZ 1) (nZ 1) (nZ 1) (nZ 1), NEWTON 100 (nlit 1 (-3))); (FOUR_EIGHT (nZ 1) (nZ 1), DEFAULTNEWTON);
                                (COULOMB (nZ 1) (nZ 1), DEFAULTNEWTON); (LENZ_JENSEN, DEFAULTNEWTON)] ->
  accepted toy_features (fun _ => true) (toy_file ip si rf false LU_ANGSTROM) toy_rng.
Proof. intros si ip rf H. repeat (destruct H as [H|H]; [injection H as <- <-; accept|]). destruct H. Qed.
Print Assumptions C50_unimplemented_accepted_refuted.

(** ** C51 *)
Theorem C51_checked_lengths_partial :
  forall {F} {NF : Num F} ft normal_ok (inp : InputData F) rng n ps mat o u n',
    input ft normal_ok inp rng n = Ok ((ps, mat, o, u), n') ->
    let species := length (mat_m mat) in
    let entries := length (pp_Z (in_particle inp)) in
    length (mat_Z mat) = species /\ length (mat_Eb mat) = species /\ length (mat_Es mat) = species /\
    (length (mp_Ed (in_material inp)) <= 1 -> length (mat_Ed mat) = species) /\
    (length (mp_interaction_index (in_material inp)) <= 1 -> length (mat_interaction_index mat) = species) /\
    length (pp_m (in_particle inp)) = entries /\ length (pp_E (in_particle inp)) = entries /\
    length (pp_pos (in_particle inp)) = entries /\ length (pp_dir (in_particle inp)) = entries /\
    (o_use_hdf5 o = false ->
       entries <= length (pp_N (in_particle inp)) /\ entries <= length (pp_Ec (in_particle inp)) /\ entries <= length (pp_Es (in_particle inp))).
Proof. intros F NF. exact accepted_lengths. Qed.
Print Assumptions C51_checked_lengths_partial.
(** the cutoff energies are never checked, the displacement energies and
    interaction indices only when at most one is given *)
Theorem C51_cutoff_energies_refuted :
  forall {F} {NF : Num F} ft normal_ok (inp : InputData F) rng n ps mat o u n' (l : list F),
    input ft normal_ok inp rng n = Ok ((ps, mat, o, u), n') ->
    exists mat', input ft normal_ok (with_material (replace_Ec l (in_material inp)) inp) rng n = Ok ((ps, mat', o, u), n') /\
      length (mat_Ec mat') = length l /\ length (mat_m mat') = length (mat_m mat).
Proof.
  intros F NF ft nok inp rng n ps mat o u n' l H. destruct (replace_Ec_accepted _ _ _ _ _ _ _ _ _ _ l H) as (eu & _ & mat' & H1 & H2 & H3).
  exists mat'. rewrite H2, H3, map_length. auto.
Qed.
Print Assumptions C51_cutoff_energies_refuted.
Theorem C51_displacement_energies_refuted :
  forall {F} {NF : Num F} ft normal_ok (inp : InputData F) rng n ps mat o u n' (l : list F), 2 <= length l ->
    input ft normal_ok inp rng n = Ok ((ps, mat, o, u), n') ->
    exists mat', input ft normal_ok (with_material (replace_Ed l (in_material inp)) inp) rng n = Ok ((ps, mat', o, u), n') /\
      length (mat_Ed mat') = length l /\ length (mat_m mat') = length (mat_m mat).
Proof.
  intros F NF ft nok inp rng n ps mat o u n' l Hl H. destruct (replace_Ed_accepted _ _ _ _ _ _ _ _ _ _ l Hl H) as (eu & _ & mat' & H1 & H2 & H3).
  exists mat'. rewrite H2, H3, map_length. auto.
Qed.
Print Assumptions C51_displacement_energies_refuted.
Theorem C51_interaction_indices_refuted :
  forall {F} {NF : Num F} ft normal_ok (inp : InputData F) rng n ps mat o u n' (l : list nat), 2 <= length l ->
    Forall (fun i => i < length (o_interaction_potential o)) l ->
    input ft normal_ok inp rng n = Ok ((ps, mat, o, u), n') ->
    exists mat', input ft normal_ok (with_material (replace_interaction_index l (in_material inp)) inp) rng n = Ok ((ps, mat', o, u), n') /\
      mat_interaction_index mat' = l /\ length (mat_m mat') = length (mat_m mat).
Proof.
  intros F NF ft nok inp rng n ps mat o u n' l Hl Hb H. destruct (replace_index_accepted _ _ _ _ _ _ _ _ _ _ l Hl Hb H) as (mat' & H1 & H2 & H3).
  exists mat'. rewrite H3. auto.
Qed.
Print Assumptions C51_interaction_indices_refuted.
Example C51_applies : accepted toy_features (fun _ => true) (with_material (replace_Ec [] toy_mp) (toy_file KR_C MENDENHALL_WELLER DEFAULTNEWTON false LU_ANGSTROM)) toy_rng /\
  2 <= length [0; 0; 0] /\ Forall (fun i => i < 1) [0; 0; 0].
Proof. split; [accept|]. split; [cbn; lia|repeat constructor]. Qed.

(** ** C52 *)
Theorem C52_particles_as_requested :
  forall {F} {NF : Num F} ft normal_ok (inp : InputData F) rng n ps mat o u n',
    input ft normal_ok inp rng n = Ok ((ps, mat, o, u), n') -> o_use_hdf5 o = false ->
    let pp := in_particle inp in
    let indices := if Nat.leb (length (pp_interaction_index pp)) 1 then repeat 0 (length (pp_Z pp)) else pp_interaction_index pp in
    exists lu eu mu blocks,
      length_unit_value (pp_length_unit pp) = Ok lu /\ energy_unit_value (pp_energy_unit pp) = Ok eu /\ mass_unit_value (pp_mass_unit pp) = Ok mu /\
      u = mkOU lu eu mu /\
      ps = concat blocks /\ length blocks = length (pp_Z pp) /\
      forall i block, nth_error blocks i = Some block ->
        exists N m Z E Ec Es index pos dir,
          nth_error (pp_N pp) i = Some N /\ nth_error (pp_m pp) i = Some m /\ nth_error (pp_Z pp) i = Some Z /\ nth_error (pp_E pp) i = Some E /\
          nth_error (pp_Ec pp) i = Some Ec /\ nth_error (pp_Es pp) i = Some Es /\ nth_error indices i = Some index /\
          nth_error (pp_pos pp) i = Some pos /\ nth_error (pp_dir pp) i = Some dir /\
          length block = N /\ Forall (particle_of_entry (is_some (ft_hdf5 ft)) lu eu mu rng m Z E Ec Es index pos dir) block.
Proof.
  intros F NF ft nok inp rng n ps mat o u n' H Hh pp indices. apply input_inv in H.
  destruct H as (-> & mat0 & Ed & lu & eu & mu & _ & _ & _ & _ & _ & _ & _ & _ & _ & _ & _ & _ & _ & _ & _ & _ & Hlu & Heu & Hmu & Hps & Hu & _).
  unfold make_particles in Hps. cbv zeta in Hps. rewrite Hh in Hps. apply make_entries_ok in Hps. destruct Hps as (blocks & -> & HF).
  exists lu, eu, mu, blocks. do 5 (split; [assumption || reflexivity|]). split; [apply Forall2_len in HF; rewrite seq_length in HF; symmetry; exact HF|].
  intros i block Hi. destruct (Forall2_nth_r _ _ _ _ _ HF Hi) as (j & Hj & HP). apply nth_error_seq0 in Hj. subst j. exact HP.
Qed.
Print Assumptions C52_particles_as_requested.
Example C52_applies : exists ps mat u n',
  input toy_features (fun _ => true) (toy_file KR_C MENDENHALL_WELLER DEFAULTNEWTON false LU_ANGSTROM) toy_rng 0 =
    Ok ((ps, mat, toy_table KR_C MENDENHALL_WELLER DEFAULTNEWTON false, u), n') /\ length ps = 2.
Proof. do 4 eexists. split; vm_compute; reflexivity. Qed.

(** with use_hdf5 they are those of the HDF5 file, as they are, and no random number is drawn *)
Theorem C52_particles_of_the_file :
  forall {F} {NF : Num F} ft normal_ok (inp : InputData F) rng n ps mat o u n',
    input ft normal_ok inp rng n = Ok ((ps, mat, o, u), n') -> o_use_hdf5 o = true -> ft_hdf5 ft = Some (Ok ps) /\ n' = n.
Proof.
  intros F NF ft nok inp rng n ps mat o u n' H Hh. unfold input in H. cbv zeta in H.
  repeat (apply mbind_ok in H; let a := fresh "a" in let k := fresh "k" in let E := fresh "E" in destruct H as (a & k & E & H)).
  apply mret_ok in H. destruct H as (H & ->).
  repeat match goal with E : mlift _ _ _ = Ok _ |- _ => apply mlift_ok in E; destruct E as (E & ?) end. subst.
  injection H as -> -> -> ->. match goal with E : make_particles _ _ _ _ _ _ _ _ _ _ = Ok _ |- _ => unfold make_particles in E; rewrite Hh in E; rename E into K end.
  destruct (ft_hdf5 ft) as [file|]; apply mlift_ok in K; destruct K as (K & ->); [rewrite K; auto|discriminate].
Qed.
Print Assumptions C52_particles_of_the_file.

(** ** C53 *)
Theorem C53_weight_and_tag_refuted :
  forall {F} {NF : Num F} (i : ParticleInput F) o p, from_input i o = Ok p -> p_weight p = nZ 1 /\ p_tag p = 0%Z.
Proof. intros F NF i o p H. unfold from_input in H. inv_ok. auto. Qed.
Print Assumptions C53_weight_and_tag_refuted.
Example C53_tagged_ion_loses_its_tag : exists p,
  from_input (mkPI (nZ 4) (nZ 2) (nZ 100) (nZ 1) (nZ 0) (nZ 0) (nZ 0) (nZ 0) (nlit 6 (-1)) (nlit 8 (-1)) (nZ 0) 0 (nZ 7) 42%Z) toy_options = Ok p /\ p_tag p = 0%Z.
Proof. eexists. split; vm_compute; reflexivity. Qed.
(** the particles of a TOML input all have weight 1 and tag 0, so nothing is lost there *)
Theorem C53_toml_particles_partial :
  forall {F} {NF : Num F} ft normal_ok (inp : InputData F) rng n ps mat o u n',
    input ft normal_ok inp rng n = Ok ((ps, mat, o, u), n') -> o_use_hdf5 o = false ->
    forall i p, In i ps -> from_input i o = Ok p -> p_weight p = pi_weight i /\ p_tag p = pi_tag i.
Proof.
  intros F NF ft nok inp rng n ps mat o u n' H Hh i p Hi Hp.
  destruct (C52_particles_as_requested _ _ _ _ _ _ _ _ _ _ H Hh) as (lu & eu & mu & blocks & _ & _ & _ & _ & -> & _ & Hb).
  apply in_concat in Hi. destruct Hi as (block & Hblock & Hi). apply In_nth_error in Hblock. destruct Hblock as (k & Hk).
  destruct (Hb _ _ Hk) as (N & m & Z & E & Ec & Es & index & pos & dir & _ & _ & _ & _ & _ & _ & _ & _ & _ & _ & Hall).
  rewrite Forall_forall in Hall. specialize (Hall _ Hi). destruct pos as ((?, ?), ?), dir as ((?, ?), ?). cbn in Hall.
  destruct (C53_weight_and_tag_refuted _ _ _ Hp) as (-> & ->). split; symmetry; apply Hall.
Qed.
Print Assumptions C53_toml_particles_partial.

(** ** C61 *)
Theorem C61_default_options_partial :
  forall {F} {NF : Num F} (b : bool), o_track_recoils (default_options b : Options F) = b /\
    o_track_trajectories (default_options b : Options F) = false /\ o_track_recoil_trajectories (default_options b : Options F) = false.
Proof. intros F NF b. repeat split. Qed.
Print Assumptions C61_default_options_partial.
Theorem C61_distributions_build_refuted :
  forall {F} {NF : Num F} (b : bool), o_track_recoils (default_options_distributions b : Options F) = false /\
    o_track_trajectories (default_options_distributions b : Options F) = b.
Proof. intros F NF b. repeat split. Qed.
Print Assumptions C61_distributions_build_refuted.
(** everything else the library entry points run with is the same in both builds *)
Theorem C61_other_defaults :
  forall {F} {NF : Num F} (b : bool) (o : Options F), o = default_options b \/ o = default_options_distributions b ->
    o_track_recoil_trajectories o = false /\ o_write_buffer_size o = 8 * 1024 /\ o_weak_collision_order o = 0 /\
    o_suppress_deep_recoils o = false /\ o_high_energy_free_flight_paths o = false /\
    o_electronic_stopping_mode o = LOW_ENERGY_NONLOCAL /\ o_mean_free_path_model o = LIQUID /\
    o_interaction_potential o = [[KR_C]] /\ o_scattering_integral o = [[MENDENHALL_WELLER]] /\ o_root_finder o = [[DEFAULTNEWTON]] /\
    o_num_threads o = 1 /\ o_num_chunks o = 1 /\ o_use_hdf5 o = false /\ o_track_displacements o = false /\ o_track_energy_losses o = false.
Proof. intros F NF b o [-> | ->]; repeat split. Qed.
Print Assumptions C61_other_defaults.

(** ** C73 *)
Theorem C73_directions_partial :
  forall ft normal_ok (inp : InputData R) rng n ps mat o u n' unit_ lu lu',
    ft_hdf5 ft = None ->
    length_unit_value (pp_length_unit (in_particle inp)) = Ok lu -> length_unit_value unit_ = Ok lu' -> (0 < lu)%R -> (0 < lu')%R ->
    input ft normal_ok inp rng n = Ok ((ps, mat, o, u), n') ->
    exists ps' u', input ft normal_ok (with_particles (replace_length_unit unit_ (in_particle inp)) inp) rng n = Ok ((ps', mat, o, u'), n') /\
      Forall2 (fun i i' => match from_input i o, from_input i' o with
                           | Ok p, Ok p' => p_dir p = p_dir p'
                           | Panic k, Panic k' => k = k'
                           | _, _ => False
                           end) ps ps'.
Proof.
  intros ft nok inp rng n ps mat o u n' unit_ lu lu' Hft Hlu Hlu' Hp Hp' H.
  destruct (other_length_unit _ _ _ _ _ _ _ _ _ _ unit_ lu' Hft Hlu' H) as (ps' & u' & lu0 & H0 & H1 & HF).
  assert (lu0 = lu) by congruence. subst lu0. exists ps', u'. split; [exact H1|].
  clear H H1. induction HF as [|i i1 l l1 Hs _ IH]; constructor; [exact (same_direction o lu lu' i i1 Hp Hp' Hs)|exact IH].
Qed.
Print Assumptions C73_directions_partial.
(** the HDF5 build multiplies random components by the length unit but not fixed ones *)
Definition direction_of (i : ParticleInput spec_float) : option (Vector spec_float) :=
  match from_input i toy_options with Ok p => Some (p_dir p) | _ => None end.
Theorem C73_hdf5_build_refuted :
  exists (inp : InputData spec_float) normal_ok rng file i ps i' ps' mat o u n' mat' o' u',
    input (mkFeatures false (Some file)) normal_ok inp rng 0 = Ok ((i :: ps, mat, o, u), n') /\
    input (mkFeatures false (Some file)) normal_ok (with_particles (replace_length_unit LU_M (in_particle inp)) inp) rng 0 = Ok ((i' :: ps', mat', o', u'), n') /\
    match direction_of i, direction_of i' with
    | Some d, Some d' => nlt (nZ 2) (ndiv (vx d) (vy d)) = true /\ neqb (vx d') (vy d') = true
    | _, _ => False
    end.
Proof.
  exists (toy_file KR_C MENDENHALL_WELLER DEFAULTNEWTON false (LU_other (Some (nlit 25 (-2))))), (fun _ => true), toy_rng, (Panic ExplicitPanic).
  do 11 eexists. split; [vm_compute; reflexivity|]. split; [vm_compute; reflexivity|]. vm_compute. split; reflexivity.
Qed.
Print Assumptions C73_hdf5_build_refuted.
(** an accepted input in any arithmetic in which 1/2 differs from 1 *)
Definition point_file {F} {NF : Num F} (lu : LengthUnit F) : InputData F :=
  mkInput (default_options true)
    {| pp_length_unit := lu; pp_energy_unit := EU_EV; pp_mass_unit := MU_AMU; pp_N := [2]; pp_m := [nZ 4]; pp_Z := [nZ 2];
       pp_E := [POINT (nZ 100)]; pp_Ec := [nZ 1]; pp_Es := [nZ 0];
       pp_pos := [(POINT (nZ (-1)), POINT (nZ 0), POINT (nZ 0))]; pp_dir := [(POINT (nlit 5 (-1)), POINT (nlit 5 (-1)), POINT (nZ 0))]; pp_interaction_index := [0] |}
    {| mp_energy_unit := EU_EV; mp_mass_unit := MU_AMU; mp_Eb := [nZ 0]; mp_Es := [nZ 2]; mp_Ec := [nZ 1]; mp_Ed := [nZ 25];
       mp_Z := [nZ 29]; mp_m := [nZ 63]; mp_interaction_index := [0]; mp_surface_binding_model := SBM_TARGET; mp_bulk_binding_model := BBM_AVERAGE |}
    (Ok (mesh0d_geometry (mkMesh0D [nZ 1] [nZ 1] (nZ 1) (nZ 1)))).
Lemma point_file_accepted {F} {NF : Num F} normal_ok rng : neqb (nlit 5 (-1) : F) (nZ 1) = false ->
  accepted (mkFeatures false None) normal_ok (point_file LU_ANGSTROM) rng.
Proof.
  intros H. unfold accepted. cbv -[nZ nlit neqb nmul nadd nsub ndiv cEV cAMU cANGSTROM mesh0d_geometry]. rewrite H. do 5 eexists. reflexivity.
Qed.
Example C73_applies : accepted (mkFeatures false None) (fun _ => true) (point_file (LU_ANGSTROM : LengthUnit R)) (fun _ => 0%R) /\
  length_unit_value (LU_ANGSTROM : LengthUnit R) = Ok cANGSTROM /\ length_unit_value (LU_M : LengthUnit R) = Ok (nZ 1) /\ (0 < cANGSTROM)%R /\ (0 < (nZ 1 : R))%R.
Proof.
  split; [|split; [reflexivity|split; [reflexivity|]]].
  - apply point_file_accepted. apply neqb_false. rewrite nZ_R. change (@nlit R NumR) with Rlit. cbn. lra.
  - split; [|rewrite nZ_R; lra]. unfold cANGSTROM. change (@nlit R NumR) with Rlit. cbn. lra.
Qed.

(** ** C80 *)
(** for the screened potentials the root finder option has no effect at all *)
Definition screened_potential {F} (ip : InteractionPotential F) : Prop :=
  match ip with MOLIERE | KR_C | LENZ_JENSEN | ZBL | TRIDYN => True | _ => False end.
Definition attractive_potential {F} (ip : InteractionPotential F) : Prop :=
  match ip with LENNARD_JONES_12_6 _ _ | LENNARD_JONES_65_6 _ _ | MORSE _ _ _ | WW | KRC_MORSE _ _ _ _ _ | FOUR_EIGHT _ _ => True | _ => False end.
Theorem C80_root_finder_option_ignored_refuted :
  forall {F} {NF : Num F} (build : Build F) (p1 p2 : Particle F) bcg (o : Options F) ip,
    idx2 (o_interaction_potential o) (p_interaction_index p1) (p_interaction_index p2) = Ok ip -> screened_potential ip ->
    nlt (ndiv (nmul (p_E p1) (p_m p2)) (nadd (p_m p1) (p_m p2))) (nZ 0) = false ->
    distance_of_closest_approach build p1 p2 bcg o =
      unwrap_ok (newton_rootfinder (p_Z p1) (p_Z p2) (p_m p1) (p_m p2) (p_E p1) (bcg_impact_parameter bcg) ip 100 (nlit 1 (-6))).
Proof.
  intros F NF build p1 p2 bcg o ip Hip Hs HE. unfold distance_of_closest_approach. rewrite Hip. cbn [bind].
  destruct ip; try destruct Hs; unfold below_energy_threshold_single_root; rewrite HE; reflexivity.
Qed.
Print Assumptions C80_root_finder_option_ignored_refuted.
(** what each choice of root finder means; without the feature cpr_rootfinder the
    build has no CPR and no polynomial root finder *)
Definition chosen_root_finder {F} {NF : Num F} (build : Build F) (Za Zb Ma Mb E0 p : F) (ip : InteractionPotential F) (rf : Rootfinder F) : Res F :=
  match rf, build with
  | NEWTON max_iterations tolerance, _ => unwrap_ok (newton_rootfinder Za Zb Ma Mb E0 p ip max_iterations tolerance)
  | DEFAULTNEWTON, _ => unwrap_ok (newton_rootfinder Za Zb Ma Mb E0 p ip 100 (nlit 1 (-3)))
  | POLYNOMIAL complex_threshold, Some q => unwrap_ok (polynomial_rootfinder q Za Zb Ma Mb E0 p ip complex_threshold)
  | CPR n0 nmax epsilon complex_threshold truncation_threshold far_from_zero interval_limit derivative_free, Some q =>
      unwrap_ok (cpr_rootfinder q Za Zb Ma Mb E0 p ip n0 nmax epsilon complex_threshold truncation_threshold far_from_zero
        interval_limit derivative_free)
  | _, None => Panic ExplicitPanic
  end.
(** for the potentials with an attractive part (other than Coulomb) the option of
    the pair's entry of the table is what is used, at every finite energy *)
Theorem C80_root_finder_option_used_partial :
  forall {F} {NF : Num F} (build : Build F) (p1 p2 : Particle F) bcg (o : Options F) ip rf,
    idx2 (o_interaction_potential o) (p_interaction_index p1) (p_interaction_index p2) = Ok ip -> attractive_potential ip ->
    idx2 (o_root_finder o) (p_interaction_index p1) (p_interaction_index p2) = Ok rf ->
    nlt_inf (ndiv (nmul (p_E p1) (p_m p2)) (nadd (p_m p1) (p_m p2))) = true ->
    distance_of_closest_approach build p1 p2 bcg o =
      chosen_root_finder build (p_Z p1) (p_Z p2) (p_m p1) (p_m p2) (p_E p1) (bcg_impact_parameter bcg) ip rf.
Proof.
  intros F NF build p1 p2 bcg o ip rf Hip Hs Hrf HE. unfold distance_of_closest_approach. rewrite Hip, Hrf. cbn [bind].
  destruct ip; try destruct Hs; unfold below_energy_threshold_single_root; rewrite HE; destruct rf; destruct build; reflexivity.
Qed.
Print Assumptions C80_root_finder_option_used_partial.
Example C80_applies : screened_potential (KR_C : InteractionPotential spec_float) /\ p_interaction_index toy_ion = 0 /\
  idx2 (o_interaction_potential (toy_table KR_C MENDENHALL_WELLER (NEWTON 3 (nlit 1 (-9))) false)) 0 0 = Ok KR_C /\
  nlt (ndiv (nmul (p_E toy_ion) (p_m toy_ion)) (nadd (p_m toy_ion) (p_m toy_ion))) (nZ 0) = false.
Proof. split; [exact I|]. split; [reflexivity|]. split; [reflexivity|]. vm_compute. reflexivity. Qed.
