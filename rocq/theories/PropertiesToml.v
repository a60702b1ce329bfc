(** * PropertiesToml.v - C123, C124: what an input file says and what is read from it *)
From Coq Require Import ZArith List Bool String Lia Floats.SpecFloat.
From Verif Require Import Num NumSF ModelTypes ModelParticle ModelGeometry ModelMaterial ModelInput ModelToml
  SpecInput SpecToml ProofsBase ProofsInput ProofsToml Toy PropertiesInput.
Import ListNotations.
Open Scope string_scope.
Open Scope nat_scope.

(** ** C123 *)
(** A file that says - in any order, with any other keys besides, and possibly leaving out what equals
    the documented default - these options, this material, these particles and this geometry, is read as
    exactly that.  [build] is the constructor of the geometry. *)
Theorem C123_read_as_written :
  forall {F} {NF : Num F} parse (l : list (string * Toml F)) name o m p,
    (forall g build, file_written parse (mesh0d_written parse) l name o m p g ->
       read_file parse (read_mesh0d parse) build (TTable l) = Ok (name, mkInput o p m (build g))) /\
    (forall g build, file_written parse (mesh1d_written parse) l name o m p g ->
       read_file parse (read_mesh1d parse) build (TTable l) = Ok (name, mkInput o p m (build g))) /\
    (forall g build, file_written parse (mesh2d_written parse) l name o m p g ->
       read_file parse (read_mesh2d parse) build (TTable l) = Ok (name, mkInput o p m (build g))) /\
    (forall g build, file_written parse (homogeneous2d_written parse) l name o m p g ->
       read_file parse (read_homogeneous2d parse) build (TTable l) = Ok (name, mkInput o p m (build g))) /\
    (forall g build, file_written parse (sphere_written parse) l name o m p g ->
       read_file parse (read_sphere parse) build (TTable l) = Ok (name, mkInput o p m (build g))) /\
    (forall g build, file_written parse (trimesh_written parse) l name o m p g ->
       read_file parse (read_trimesh parse) build (TTable l) = Ok (name, mkInput o p m (build g))).
Proof.
  intros F NF parse l name o m p. repeat split; intros g build H; eapply file_read; try exact H; intros t g'.
  - apply mesh0d_read.
  - apply mesh1d_read.
  - apply mesh2d_read.
  - apply homogeneous2d_read.
  - apply sphere_read.
  - apply trimesh_read.
Qed.
Print Assumptions C123_read_as_written.

(** An options section with a name and nothing else gives the options of the library functions, recoils tracked. *)
Theorem C123_defaults_of_the_library :
  forall {F} {NF : Num F} name (rest : list (string * Toml F)), keys_distinct (("name", TString name) :: rest) ->
    (forall k, In k (map fst rest) -> ~ In k option_keys) ->
    read_options (TTable (("name", TString name) :: rest)) = Ok (name, default_options true).
Proof.
  intros F NF name rest Hd Hr. apply options_read. split; [exact Hd|]. split; [left; reflexivity|].
  assert (Ho : forall k, In k option_keys -> k <> "name" -> omitted (("name", TString name) :: rest) k).
  { intros k Hk Hn [E|Hi]; [cbn in E; congruence|]. exact (Hr k Hi Hk). }
  repeat split; (right; split; [apply Ho; [unfold option_keys; cbn [In]; tauto|discriminate]|reflexivity]).
Qed.
Print Assumptions C123_defaults_of_the_library.

(** A file without one of the keys that have no default is never accepted. *)
Theorem C123_required_keys :
  forall {F} {NF : Num F} parse {G} (read_geometry : Toml F -> Res G) build ft normal_ok l rng n result,
    keys_distinct l -> input_file parse read_geometry build ft normal_ok (TTable l) rng n = Ok result ->
    exists lo lm lp tg, given l "options" (TTable lo) /\ given l "material_parameters" (TTable lm) /\
      given l "particle_parameters" (TTable lp) /\ given l "geometry_input" tg /\
      ~ omitted lo "name" /\ (forall k, In k material_required -> ~ omitted lm k) /\ (forall k, In k particle_required -> ~ omitted lp k).
Proof.
  intros F NF parse G rg build ft nok l rng n result Hd H. unfold input_file in H.
  destruct result as (result & n'). apply mbind_ok in H. destruct H as (r & k & H & _). apply mlift_ok in H. destruct H as (H & _).
  unfold read_file in H. apply bind_ok in H. destruct H as ((name & o) & Ho & H). apply bind_ok in H. destruct H as (m & Hm & H).
  apply bind_ok in H. destruct H as (p & Hp & H). apply bind_ok in H. destruct H as (g & Hg & _).
  unfold field in Ho, Hm, Hp, Hg.
  destruct (lookup "options" l) as [to|] eqn:Eo; [|discriminate]. destruct (lookup "material_parameters" l) as [tm|] eqn:Em; [|discriminate].
  destruct (lookup "particle_parameters" l) as [tp|] eqn:Ep; [|discriminate]. destruct (lookup "geometry_input" l) as [tg|] eqn:Eg; [|discriminate].
  destruct to as [| | | | |lo]; try discriminate. destruct tm as [| | | | |lm]; try discriminate. destruct tp as [| | | | |lp]; try discriminate.
  exists lo, lm, lp, tg. unfold given. do 4 (split; [apply lookup_some; assumption|]).
  split; [|split].
  - intros Hn. unfold read_options in Ho. rewrite (field_omitted _ _ _ Hn) in Ho. discriminate.
  - intros q Hq Hn. exact (material_missing parse lm q Hq Hn m Hm).
  - intros q Hq Hn. exact (particles_missing parse lp q Hq Hn p Hp).
Qed.
Print Assumptions C123_required_keys.

(** ** C124 *)
(** With two or more interaction indices the indices of the file are used ... *)
Theorem C124_indices_used_partial :
  forall {F} {NF : Num F} ft normal_ok (inp : InputData F) rng n ps mat o u n',
    input ft normal_ok inp rng n = Ok ((ps, mat, o, u), n') -> 2 <= List.length (mp_interaction_index (in_material inp)) ->
    mat_interaction_index mat = mp_interaction_index (in_material inp).
Proof.
  intros F NF ft nok inp rng n ps mat o u n' H Hl. unfold input in H. cbv zeta in H.
  apply mbind_ok in H. destruct H as (mat0 & k0 & Em & H). apply mlift_ok in Em. destruct Em as (Em & ->).
  unfold material_new in Em. apply bind_ok in Em. destruct Em as (eu & _ & Em). apply bind_ok in Em. destruct Em as (mu & _ & Em).
  apply bind_ok in Em. destruct Em as (g & _ & Em). injection Em as <-.
  repeat (apply mbind_ok in H; let a := fresh "a" in let k := fresh "k" in let E := fresh "E" in destruct H as (a & k & E & H)).
  apply mret_ok in H. destruct H as (H & _). injection H as _ -> _ _.
  cbn [set_mat_arrays mat_interaction_index]. unfold expand_indices. replace (Nat.leb _ 1) with false by (symmetry; apply Nat.leb_gt; lia). reflexivity.
Qed.
Print Assumptions C124_indices_used_partial.

(** ... but a single one is thrown away: the run is the one of a file that gives none. *)
Theorem C124_single_index_refuted :
  forall {F} {NF : Num F} ft normal_ok (inp : InputData F) rng n i,
    input ft normal_ok (with_material (replace_interaction_index [i] (in_material inp)) inp) rng n =
      input ft normal_ok (with_material (replace_interaction_index [0] (in_material inp)) inp) rng n /\
    input ft normal_ok (with_particles (replace_particle_index [i] (in_particle inp)) inp) rng n =
      input ft normal_ok (with_particles (replace_particle_index [0] (in_particle inp)) inp) rng n.
Proof.
  intros F NF ft nok inp rng n i. split.
  - rewrite (material_index_ignored ft nok inp [i]), (material_index_ignored ft nok inp [0]) by (cbn; lia). reflexivity.
  - rewrite (particle_index_ignored ft nok inp [i]), (particle_index_ignored ft nok inp [0]) by (cbn; lia). reflexivity.
Qed.
Print Assumptions C124_single_index_refuted.

(** A key that is not one of the known ones - a misspelt one, say - is ignored without a word: two files
    that agree on the known keys give the same run. *)
Theorem C124_unknown_keys_refuted :
  forall {F} {NF : Num F} parse {G} (read_geometry : Toml F -> Res G) build ft normal_ok lo lm lp lo' lm' lp' tg rng n,
    keys_distinct lo -> keys_distinct lo' -> keys_distinct lm -> keys_distinct lm' -> keys_distinct lp -> keys_distinct lp' ->
    same_for option_keys lo lo' -> same_for material_keys lm lm' -> same_for particle_keys lp lp' ->
    input_file parse read_geometry build ft normal_ok (sections lo lm lp tg) rng n =
    input_file parse read_geometry build ft normal_ok (sections lo' lm' lp' tg) rng n.
Proof.
  intros F NF parse G rg build ft nok lo lm lp lo' lm' lp' tg rng n D1 D2 D3 D4 D5 D6 S1 S2 S3. 
  assert (E : read_file parse rg build (sections lo lm lp tg) = read_file parse rg build (sections lo' lm' lp' tg)).
  { unfold read_file, sections. unfold field. cbn [lookup String.eqb Ascii.eqb Bool.eqb].
    rewrite (same_options lo lo' (same_lookup _ _ _ D1 D2 S1)), (same_material parse lm lm' (same_lookup _ _ _ D3 D4 S2)),
      (same_particles parse lp lp' (same_lookup _ _ _ D5 D6 S3)). reflexivity. }
  unfold input_file. rewrite E. reflexivity.
Qed.
Print Assumptions C124_unknown_keys_refuted.

(** ** A concrete file *)
Definition toy_parse : string -> option spec_float := fun _ => None.
Definition toy_options_section : list (string * Toml spec_float) :=
  [("num_threads", TInt 1); ("name", TString "toy_"); ("interaction_potential", TArray [TArray [TString "KR_C"; TString "ZBL"]; TArray [TString "ZBL"; TString "MOLIERE"]]);
   ("scattering_integral", TArray [TArray [TString "MAGIC"; TTable [("GAUSS_MEHLER", TTable [("n_points", TInt 6)])]]; TArray [TString "MAGIC"; TString "MAGIC"]]);
   ("root_finder", TArray [TArray [TString "DEFAULTNEWTON"; TTable [("NEWTON", TTable [("tolerance", TFloat (nlit 1 (-3))); ("max_iterations", TInt 100)])]]; TArray [TString "DEFAULTNEWTON"; TString "DEFAULTNEWTON"]])].
Definition toy_material_section (index : Z) : list (string * Toml spec_float) :=
  [("energy_unit", TString "EV"); ("mass_unit", TString "AMU"); ("Eb", TArray [TInt 0]); ("Es", TArray [TInt 2]); ("Ec", TArray [TInt 1]);
   ("Z", TArray [TInt 29]); ("m", TArray [TInt 63]); ("interaction_index", TArray [TInt index])].
Definition toy_particle_section : list (string * Toml spec_float) :=
  [("length_unit", TString "ANGSTROM"); ("energy_unit", TString "EV"); ("mass_unit", TString "AMU"); ("N", TArray [TInt 2]); ("m", TArray [TInt 4]);
   ("Z", TArray [TInt 2]); ("E", TArray [TInt 100]); ("Ec", TArray [TInt 1]); ("Es", TArray [TInt 0]);
   ("pos", TArray [TArray [TInt (-1); TTable [("min", TInt 0); ("max", TInt 1)]; TInt 0]]);
   ("dir", TArray [TArray [TFloat (nlit 5 (-1)); TTable [("mean", TFloat (nlit 5 (-1))); ("std", TInt 0)]; TInt 0]])].
Definition toy_geometry_section : list (string * Toml spec_float) :=
  [("densities", TArray [TFloat (nlit 1 (-1))]); ("length_unit", TString "ANGSTROM"); ("electronic_stopping_correction_factor", TInt 1)].
Definition toy_build (g : Mesh0DInput spec_float) : Res (Geometry spec_float) := let! m := mesh0d_new g in Ok (mesh0d_geometry m).
Definition toy_document (index : Z) := sections toy_options_section (toy_material_section index) toy_particle_section (TTable toy_geometry_section).
Definition indices_of (r : Res (list (ParticleInput spec_float) * Material spec_float * Options spec_float * OutputUnits spec_float * nat)) : Res (list nat * list nat) :=
  let! (r, _) := r in let '(ps, mat, _, _) := r in Ok (map (@pi_interaction_index _) ps, mat_interaction_index mat).
(** the file is accepted, and asking for index 1 gives index 0 *)
Example C124_index_one_becomes_zero :
  indices_of (input_file toy_parse (read_mesh0d toy_parse) toy_build toy_features (fun _ => true) (toy_document 1) toy_rng 0) = Ok ([0; 0], [0]).
Proof. vm_compute. reflexivity. Qed.
(** a misspelt "track_recoil" *)
Example C124_misspelt :
  keys_distinct (("track_recoil", TBool false) :: toy_options_section) /\
  same_for option_keys (("track_recoil", TBool false) :: toy_options_section) toy_options_section.
Proof.
  split.
  - unfold keys_distinct. repeat constructor; cbn; intuition discriminate.
  - intros k v Hk. split; [|right; assumption]. intros [E|H]; [|exact H]. injection E as <- _. cbn in Hk. intuition discriminate.
Qed.
Definition toy_written_options : list (string * Toml spec_float) :=
  [("track_recoils", TBool false); ("comment", TInt 5); ("name", TString "x");
   ("mean_free_path_model", TTable [("THRESHOLD", TTable [("density", TFloat (nZ 7))])])].
Definition toy_read_options : Options spec_float :=
  {| o_track_trajectories := false; o_track_recoils := false; o_track_recoil_trajectories := false; o_write_buffer_size := 8 * 1024;
     o_weak_collision_order := 0; o_suppress_deep_recoils := false; o_high_energy_free_flight_paths := false;
     o_electronic_stopping_mode := LOW_ENERGY_NONLOCAL; o_mean_free_path_model := THRESHOLD (nZ 7);
     o_interaction_potential := [[KR_C]]; o_scattering_integral := [[MENDENHALL_WELLER]]; o_root_finder := [[DEFAULTNEWTON]];
     o_num_threads := 1; o_num_chunks := 1; o_use_hdf5 := false; o_track_displacements := false; o_track_energy_losses := false |}.
Definition toy_written_material : list (string * Toml spec_float) :=
  [("energy_unit", TString "KEV"); ("mass_unit", TString "AMU"); ("Eb", TArray [TFloat (nZ 3)]); ("Es", TArray [TFloat (nZ 2)]); ("Ec", TArray [TFloat (nZ 1)]);
   ("Z", TArray [TFloat (nZ 29)]); ("m", TArray [TFloat (nZ 63)]);
   ("surface_binding_model", TTable [("PLANAR", TTable [("calculation", TString "AVERAGE")])])].
Definition toy_read_material : MaterialParameters spec_float :=
  {| mp_energy_unit := EU_KEV; mp_mass_unit := MU_AMU; mp_Eb := [nZ 3]; mp_Es := [nZ 2]; mp_Ec := [nZ 1]; mp_Ed := [nZ 0];
     mp_Z := [nZ 29]; mp_m := [nZ 63]; mp_interaction_index := [0]; mp_surface_binding_model := PLANAR SBC_AVERAGE; mp_bulk_binding_model := BBM_INDIVIDUAL |}.
Definition toy_written_particles : list (string * Toml spec_float) :=
  [("length_unit", TString "0.25"); ("energy_unit", TString "EV"); ("mass_unit", TString "AMU"); ("N", TArray [TInt 2]); ("m", TArray [TFloat (nZ 4)]);
   ("Z", TArray [TFloat (nZ 2)]); ("E", TArray [TFloat (nZ 100)]); ("Ec", TArray [TFloat (nZ 1)]); ("Es", TArray [TFloat (nZ 0)]);
   ("pos", TArray [TArray [TFloat (nZ (-1)); TTable [("min", TFloat (nZ 0)); ("max", TFloat (nZ 1))]; TFloat (nZ 0)]]);
   ("dir", TArray [TArray [TFloat (nlit 5 (-1)); TTable [("mean", TFloat (nlit 5 (-1))); ("std", TFloat (nZ 0))]; TFloat (nZ 0)]])].
Definition toy_geometry_written : list (string * Toml spec_float) :=
  [("densities", TArray [TFloat (nlit 1 (-1))]); ("length_unit", TString "NM"); ("electronic_stopping_correction_factor", TFloat (nZ 1))].
Ltac absent := let H := fresh in intro H; cbn in H; intuition discriminate.
Ltac distinct := unfold keys_distinct; repeat constructor; absent.
Ltac present := unfold given; cbn [In toy_written_options toy_written_material toy_written_particles toy_geometry_written];
  repeat (first [left; reflexivity|right]).
Ltac said := first [left; present; fail|right; split; [absent|reflexivity]].
Example C123_applies :
  file_written toy_parse (mesh0d_written toy_parse)
    [("options", TTable toy_written_options); ("material_parameters", TTable toy_written_material);
     ("particle_parameters", TTable toy_written_particles); ("geometry_input", TTable toy_geometry_written)]
    "x" toy_read_options toy_read_material (toy_entry [0] (LU_other None)) (mkMesh0DInput LU_NM [nlit 1 (-1)] (nZ 1)).
Proof.
  split; [distinct|]. split; [|split; [|split]]; eexists; (split; [cbn [In given]; auto 10|]).
  - split; [distinct|]. split; [present|]. repeat split; said.
  - split; [distinct|]. split; [exists "KEV"; split; [present|left; cbn; auto]|]. split; [exists "AMU"; split; [present|left; cbn; auto]|].
    repeat split; first [present; fail|said].
  - split; [distinct|]. split; [exists "0.25"; split; [present|right; split; [absent|reflexivity]]|].
    split; [exists "EV"; split; [present|left; cbn; auto]|]. split; [exists "AMU"; split; [present|left; cbn; auto]|].
    repeat split; first [present; fail|said].
  - split; [distinct|]. split; [exists "NM"; split; [present|left; cbn; auto]|]. repeat split; present.
Qed.
