(** * PropertiesFollow.v - what the options about recoils and records can change *)
From Coq Require Import ZArith List Bool Lia Floats.SpecFloat.
From Verif Require Import Num NumSF ModelTypes ModelConsts ModelParticle ModelInteractions ModelGeometry
  ModelMaterial ModelBca Spec SpecTwo SpecPath ToyLibm Toy ToyRun ProofsBase ProofsBca ProofsStep ProofsFollow.
Import ListNotations.
Open Scope nat_scope.

(** ** C94: following recoils does not change the ion *)

(** Whatever a run with recoils gives, the run without them gives its first row,
    and that row only; in particular it comes to an end and does not panic. *)
Theorem C94_recoils_off {F} {NF : Num F} build (mat : Material F) o o' fuel ion rng n out n' :
  same_but_recoils o o' -> o_track_recoils o' = false ->
  single_ion_bca build mat o fuel ion rng n = Ok (out, n') ->
  exists p rest m, out = p :: rest /\ single_ion_bca build mat o' fuel ion rng n = Ok ([p], m).
Proof. apply run_off. Qed.
Print Assumptions C94_recoils_off.

(** Two runs that differ in what is done about recoils (followed or not, deep
    ones dropped or not, trajectories recorded or not) begin with the same row:
    the ion's own history is the same in every field. *)
Theorem C94_ion_is_the_same {F} {NF : Num F} build (mat : Material F) o o' fuel fuel' ion rng n out out' m m' :
  same_but_recoils o o' ->
  single_ion_bca build mat o fuel ion rng n = Ok (out, m) ->
  single_ion_bca build mat o' fuel' ion rng n = Ok (out', m') ->
  exists p rest rest', out = p :: rest /\ out' = p :: rest'.
Proof.
  intros Hs H H'.
  set (q := {| o_track_trajectories := o_track_trajectories o; o_track_recoils := false;
     o_track_recoil_trajectories := o_track_recoil_trajectories o; o_write_buffer_size := o_write_buffer_size o;
     o_weak_collision_order := o_weak_collision_order o; o_suppress_deep_recoils := o_suppress_deep_recoils o;
     o_high_energy_free_flight_paths := o_high_energy_free_flight_paths o;
     o_electronic_stopping_mode := o_electronic_stopping_mode o; o_mean_free_path_model := o_mean_free_path_model o;
     o_interaction_potential := o_interaction_potential o; o_scattering_integral := o_scattering_integral o;
     o_root_finder := o_root_finder o; o_num_threads := o_num_threads o; o_num_chunks := o_num_chunks o;
     o_use_hdf5 := o_use_hdf5 o; o_track_displacements := o_track_displacements o;
     o_track_energy_losses := o_track_energy_losses o |}).
  assert (H1 : same_but_recoils o q) by (repeat split).
  assert (H2 : same_but_recoils o' q).
  { destruct Hs as (E1 & E2 & E3 & E4 & E5 & E6 & E7 & E8). repeat split; cbn; now symmetry. }
  destruct (run_off _ _ _ _ _ _ _ _ _ _ H1 eq_refl H) as (p & rest & k & -> & R).
  destruct (run_off _ _ _ _ _ _ _ _ _ _ H2 eq_refl H') as (p' & rest' & k' & -> & R').
  exists p, rest, rest'. split; [reflexivity|].
  apply (single_ion_mono _ _ _ fuel (Nat.max fuel fuel')) in R; [|lia|discriminate].
  apply (single_ion_mono _ _ _ fuel' (Nat.max fuel fuel')) in R'; [|lia|discriminate].
  rewrite R in R'. now injection R' as <- _.
Qed.
Print Assumptions C94_ion_is_the_same.
(** the toy run has a recoil; without recoils its first row comes back *)
Definition toy_options_off : Options spec_float := {|
  o_track_trajectories := true; o_track_recoils := false; o_track_recoil_trajectories := false;
  o_write_buffer_size := 8; o_weak_collision_order := 0; o_suppress_deep_recoils := false;
  o_high_energy_free_flight_paths := false; o_electronic_stopping_mode := LOW_ENERGY_NONLOCAL;
  o_mean_free_path_model := LIQUID;
  o_interaction_potential := o_interaction_potential toy_options;
  o_scattering_integral := [[GAUSS_MEHLER 2]];
  o_root_finder := [[DEFAULTNEWTON]];
  o_num_threads := 1; o_num_chunks := 1; o_use_hdf5 := false;
  o_track_displacements := false; o_track_energy_losses := true |}.
Definition has_recoil (r : Res (list (Particle spec_float) * nat)) : bool :=
  match r with Ok (_ :: _ :: _, _) => true | _ => false end.
Lemma toy_has_recoil : has_recoil (single_ion_bca None toy_material toy_options 10 toy_ion toy_rng 0) = true.
Proof. vm_compute. reflexivity. Qed.
Lemma follow_off build (mat : Material spec_float) o o' fuel ion rng n :
  has_recoil (single_ion_bca build mat o fuel ion rng n) = true ->
  same_but_recoils o o' -> o_track_recoils o' = false ->
  exists p q rest k m,
    single_ion_bca build mat o fuel ion rng n = Ok (p :: q :: rest, k) /\
    single_ion_bca build mat o' fuel ion rng n = Ok ([p], m).
Proof.
  intros H Hs Hoff. destruct (single_ion_bca build mat o fuel ion rng n) as [[out k]| |] eqn:E; try discriminate H.
  destruct out as [|p [|q rest]]; try discriminate H.
  destruct (C94_recoils_off _ _ _ _ _ _ _ _ _ _ Hs Hoff E) as (p' & rest' & m & E' & R). injection E' as <- _.
  exists p, q, rest, k, m. auto.
Qed.
Lemma toy_off : same_but_recoils toy_options toy_options_off.
Proof. repeat split. Qed.
Example C94_applies : exists p q rest n m,
  same_but_recoils toy_options toy_options_off /\
  single_ion_bca None toy_material toy_options 10 toy_ion toy_rng 0 = Ok (p :: q :: rest, n) /\
  single_ion_bca None toy_material toy_options_off 10 toy_ion toy_rng 0 = Ok ([p], m).
Proof.
  destruct (follow_off _ _ _ _ _ _ _ _ toy_has_recoil toy_off eq_refl) as (p & q & rest & n & m & H1 & H2).
  exists p, q, rest, n, m. split; [exact toy_off|]. split; [exact H1|exact H2].
Qed.
