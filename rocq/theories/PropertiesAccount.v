(** * PropertiesAccount.v - C114: every requested ion is accounted for, from the input file to the output files *)
From Coq Require Import ZArith List Bool Lia Floats.SpecFloat.
From Verif Require Import Num NumSF ModelTypes ModelConsts ModelParticle ModelGeometry ModelMaterial ModelBca ModelInput ModelOutput ModelPhysics
  ProofsBase ProofsBca ProofsInput Spec SpecRun ProofsRun PropertiesTransport PropertiesInput PropertiesRun Toy.
Import ListNotations.
Open Scope nat_scope.

(** What became of an ion of the particle list: the particle it was made into,
    with the same identity, either reflected or at rest. *)
Definition fate_of {F} {NF : Num F} (options : Options F) (requested : ParticleInput F) (fate : Particle F) : Prop :=
  exists p, from_input requested options = Ok p /\ same_identity p fate /\ p_incident fate = true /\
            p_left fate = negb (p_stopped fate).

Lemma fates {F} {NF : Num F} build mat (options : Options F) fuel units ions s es :
  physics_loop (run_chunk_serial build mat options fuel) options units ions = Ok (s, es) ->
  exists fs, Forall2 (fate_of options) (map (@ion_input F) ions) fs /\
    rows_of Reflected (concat es) = map (reflected_row units) (filter (@p_left F) fs) /\
    rows_of Deposited (concat es) = map (deposited_row units) (filter (@p_stopped F) fs).
Proof.
  intro H. apply C54_every_ion_once in H. destruct H as (per & HP & HR).
  rewrite !HR. clear HR. erewrite (flat_map_ext (fun p => rows_of Reflected _)) by (intros p; apply (output_lists_rows _ _ p Reflected)).
  erewrite (flat_map_ext (fun p => rows_of Deposited _)) by (intros p; apply (output_lists_rows _ _ p Deposited)).
  rewrite !flat_map_filter.
  induction HP as [|ion out ions per (p & n' & Hf & Hs) HP (fs & I1 & I2 & I3)]; [exists []; repeat split; constructor|].
  destruct (C02_ion_first_with_identity _ _ _ _ _ _ _ _ _ _ _ Hs) as (fate & recoils & -> & Hid & Hrec).
  pose proof (C01_every_returned_particle_is_finished _ _ _ _ _ _ _ _ _ _ _ Hs) as Hfin. inversion Hfin as [|? ? Hfate _]; subst.
  assert (Hp : p_incident p = true) by (unfold from_input in Hf; inv_ok; reflexivity).
  assert (Hi : p_incident fate = true) by (unfold same_identity in Hid; intuition congruence).
  assert (HL : p_left fate = negb (p_stopped fate)).
  { destruct Hfate as [(E1 & E2 & _)|(E1 & E2 & _)]; rewrite E1, E2; reflexivity. }
  exists (fate :: fs). cbn [map concat]. rewrite !filter_app, !map_app, I2, I3.
  split; [constructor; [exists p; auto|exact I1]|]. cbn [filter]. unfold reflected at 1, deposited at 1. rewrite Hi. cbn [andb].
  assert (N : forall t, filter (fun q : Particle F => p_incident q && t q) recoils = []).
  { intro t. clear -Hrec. induction Hrec as [|r l Hr Hl IH]; [reflexivity|]. cbn [filter]. rewrite Hr. exact IH. }
  change (filter reflected recoils) with (filter (fun q : Particle F => p_incident q && p_left q) recoils).
  change (filter deposited recoils) with (filter (fun q : Particle F => p_incident q && p_stopped q) recoils).
  rewrite !N. split; [destruct (p_left fate)|destruct (p_stopped fate)]; reflexivity.
Qed.

(** The ions of the particle list, in order, each end in exactly one row, of the reflected or of the deposited list, for every
    schedule of the threads and every assignment of random streams. *)
Theorem C114_every_requested_ion_is_accounted_for :
  forall {F} {NF : Num F} build mat (o : Options F) fuel u ps ions schedule s es,
    map (@ion_input F) ions = ps -> (forall chunk, split_leaves (schedule chunk) = chunk) ->
    physics_loop (fun chunk => run_chunk_parallel build mat o fuel (schedule chunk)) o u ions = Ok (s, es) ->
    exists fs, Forall2 (fate_of o) ps fs /\
      rows_of Reflected (concat es) = map (reflected_row u) (filter (@p_left F) fs) /\
      rows_of Deposited (concat es) = map (deposited_row u) (filter (@p_stopped F) fs).
Proof.
  intros F NF build mat o fuel u ps ions schedule s es <- Hs H.
  rewrite C56_parallel_serial in H by exact Hs. exact (fates _ _ _ _ _ _ _ _ H).
Qed.
Print Assumptions C114_every_requested_ion_is_accounted_for.

Lemma blocks_total {A} (blocks : list (list A)) : forall l : list nat,
  (forall i b, nth_error blocks i = Some b -> nth_error l i = Some (length b)) ->
  length (concat blocks) = list_sum (firstn (length blocks) l).
Proof.
  induction blocks as [|b bs IH]; intros l HN; [reflexivity|]. pose proof (HN 0 b eq_refl) as H0.
  destruct l as [|x l]; [discriminate|]. injection H0 as ->. cbn [concat length firstn list_sum fold_right]. rewrite app_length.
  rewrite (IH l) by (intros i c Hc; exact (HN (S i) c Hc)). reflexivity.
Qed.
(** The rows of the two lists, and the numbers of the printed summary, add up to
    the numbers of ions asked for in the file. *)
Theorem C114_numbers_add_up :
  forall {F} {NF : Num F} ft normal_ok (inp : InputData F) rng n ps mat o u n' build fuel ions schedule s es,
    input ft normal_ok inp rng n = Ok ((ps, mat, o, u), n') -> o_use_hdf5 o = false ->
    map (@ion_input F) ions = ps -> (forall chunk, split_leaves (schedule chunk) = chunk) ->
    physics_loop (fun chunk => run_chunk_parallel build mat o fuel (schedule chunk)) o u ions = Ok (s, es) ->
    let asked := list_sum (firstn (length (pp_Z (in_particle inp))) (pp_N (in_particle inp))) in
    length (rows_of Reflected (concat es)) + length (rows_of Deposited (concat es)) = asked /\
    list_sum (map (fun row => snd (fst (fst row))) (sps_print s u)) + list_sum (map snd (sps_print s u)) = asked.
Proof.
  intros F NF ft nok inp rng n ps mat o u n' build fuel ions schedule s es Hin Hh Hps Hs H asked.
  assert (HA : length ps = asked).
  { destruct (C52_particles_as_requested _ _ _ _ _ _ _ _ _ _ Hin Hh) as (lu & eu & mu & blocks & _ & _ & _ & _ & -> & HL & HB).
    assert (HN : forall i b, nth_error blocks i = Some b -> nth_error (pp_N (in_particle inp)) i = Some (length b)).
    { intros i b Hb. destruct (HB i b Hb) as (N & ? & ? & ? & ? & ? & ? & ? & ? & HN & _ & _ & _ & _ & _ & _ & _ & _ & HL' & _). rewrite HN, HL'. reflexivity. }
    unfold asked. rewrite <- HL. apply blocks_total. exact HN. }
  pose proof H as H'. rewrite C56_parallel_serial in H' by exact Hs. destruct (C58_totals _ _ _ _ _ _ _ _ H') as (T1 & _ & T3).
  rewrite <- T1, <- T3. enough (E : length (rows_of Reflected (concat es)) + length (rows_of Deposited (concat es)) = asked) by (split; exact E).
  destruct (C114_every_requested_ion_is_accounted_for build mat o fuel u ps ions schedule s es Hps Hs H) as (fs & HF & -> & ->).
  rewrite !map_length, <- HA. clear -HF. induction HF as [|i f is fs (p & _ & _ & _ & Hf) HF IH]; [reflexivity|].
  cbn [filter]. rewrite Hf. destruct (p_stopped f); cbn [negb length]; lia.
Qed.
Print Assumptions C114_numbers_add_up.
(** a file that asks for two ions, run to the end *)
Definition whole_file : InputData spec_float :=
  mkInput toy_options
    {| pp_length_unit := LU_M; pp_energy_unit := EU_EV; pp_mass_unit := MU_AMU; pp_N := [2]; pp_m := [nZ 4]; pp_Z := [nZ 1];
       pp_E := [POINT (nZ 100)]; pp_Ec := [nZ 60]; pp_Es := [nZ 1];
       pp_pos := [(POINT (nlit 5 (-1)), POINT (nZ 0), POINT (nZ 0))]; pp_dir := [(POINT (nlit 6 (-1)), POINT (nlit 8 (-1)), POINT (nZ 0))];
       pp_interaction_index := [0] |}
    {| mp_energy_unit := EU_EV; mp_mass_unit := MU_AMU; mp_Eb := [nZ 0]; mp_Es := [nZ 2]; mp_Ec := [nZ 20]; mp_Ed := [nZ 25];
       mp_Z := [nZ 2]; mp_m := [nZ 4]; mp_interaction_index := [0]; mp_surface_binding_model := SBM_TARGET; mp_bulk_binding_model := BBM_AVERAGE |}
    (Ok (mesh0d_geometry toy_mesh)).
Definition whole_run :=
  match input toy_features (fun _ => true) whole_file toy_rng 0 with
  | Ok ((ps, mat, o, u), _) =>
      match physics_loop (fun chunk => run_chunk_parallel None mat o 10 (halves chunk)) o u (map (fun i => mkIon i toy_rng) ps) with
      | Ok (s, es) => Some (length ps, length (rows_of Reflected (concat es)), length (rows_of Deposited (concat es)))
      | _ => None
      end
  | _ => None
  end.
Example C114_applies : whole_run = Some (2, 0, 2).
Proof. vm_compute. reflexivity. Qed.
