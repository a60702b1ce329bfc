(** * PropertiesSpecies.v - C104: one species more in the list, the same target *)
From Coq Require Import ZArith List Bool Reals Lra Lia Floats.SpecFloat.
From Verif Require Import Num NumR NumSF ToyLibm ModelTypes ModelConsts ModelParticle ModelInteractions ModelGeometry
  ModelMaterial ModelBca SpecTwo SpecSpecies ProofsTwo ProofsSpecies ToyR ToyRun ToyLoss ToySpecies.
Import ListNotations.
Open Scope R_scope.

(** A species entered as two species with the same constants that share its
    density: every run is the same, to the last recoil and random number. *)
Theorem C104_a_species_may_be_entered_in_parts :
  forall (build : Build R) (mat mat' : Material R) (options : Options R) k fuel ion rng n,
    species_divided k mat mat' -> (averaging mat -> Forall (fun e => 0 <= e) (mat_Es mat)) ->
    (forall i, 0 <= rng i) ->
    single_ion_bca build mat' options fuel ion rng n = single_ion_bca build mat options fuel ion rng n.
Proof.
  intros build mat mat' options k fuel ion rng n S HE Hr.
  exact (st_single mat mat' _ _ (divided_target k mat mat' S HE) build options fuel ion rng n Hr).
Qed.
Print Assumptions C104_a_species_may_be_entered_in_parts.

(** A species that is listed but nowhere present, anywhere but in the first
    place, changes nothing (with AVERAGE: unless it alone decides whether the
    binding energies add up to zero). *)
Theorem C104_absent_species_have_no_influence_partial :
  forall (build : Build R) (mat mat' : Material R) (options : Options R) k fuel ion rng n,
    (1 <= k)%nat -> absent_species_added k mat mat' ->
    (averaging mat -> (total_binding mat = 0 <-> total_binding mat' = 0)) -> (forall i, 0 <= rng i) ->
    single_ion_bca build mat' options fuel ion rng n = single_ion_bca build mat options fuel ion rng n.
Proof.
  intros build mat mat' options k fuel ion rng n Hk S HE Hr.
  exact (st_single mat mat' _ _ (absent_target k mat mat' Hk S HE) build options fuel ion rng n Hr).
Qed.
Print Assumptions C104_absent_species_have_no_influence_partial.

(** Half-spaces entered with the density of one species divided, or with a
    density 0 more, are such targets. *)
Theorem C104_half_spaces :
  forall lu u densities densities' ck g g' k,
    length_unit_value lu = Ok u -> 0 < u -> 0 < fold_right Rplus 0 densities ->
    mesh0d_new {| m0i_length_unit := lu; m0i_densities := densities; m0i_ck := ck |} = Ok g ->
    mesh0d_new {| m0i_length_unit := lu; m0i_densities := densities'; m0i_ck := ck |} = Ok g' ->
    (divided k densities densities' -> same_shape (divided k) (mesh0d_geometry g) (mesh0d_geometry g')) /\
    (inserted k 0 densities densities' -> same_shape (inserted k 0) (mesh0d_geometry g) (mesh0d_geometry g')).
Proof.
  intros lu u l l' ck g g' k Hu Hu0 Hl Hg Hg'. rewrite <- nsum_R in Hl. split; intro HD.
  - eapply half_space_shape; try eassumption; [intros; apply divided_map; assumption|apply divided_sum].
  - eapply half_space_shape; try eassumption; [intros; apply inserted_map; assumption|apply inserted_sum].
Qed.
Print Assumptions C104_half_spaces.

#[local] Existing Instance series_num.
(** In the first place an absent species does change a run: when a flight
    starts no collision, local electronic stopping is that of species 0.
    Helium of 1 keV skimming along copper, with hydrogen (density 0) listed in
    front, ends more than 1 eV lower. *)
Theorem C104_refuted_absent_species_in_the_first_place :
  exists mesh mesh' ion out out' n n',
    mesh0d_new copper_input = Ok mesh /\ mesh0d_new padded_input = Ok mesh' /\
    inserted 0 (nZ 0) (m0i_densities copper_input) (m0i_densities padded_input) /\
    from_input skimming (plain_options LOW_ENERGY_LOCAL LIQUID 0%nat) = Ok ion /\
    single_ion_bca None (copper mesh) (plain_options LOW_ENERGY_LOCAL LIQUID 0%nat) 20%nat ion (draws [nZ 0]) 0%nat = Ok ([out], n) /\
    single_ion_bca None (padded mesh') (plain_options LOW_ENERGY_LOCAL LIQUID 0%nat) 20%nat ion (draws [nZ 0]) 0%nat = Ok ([out'], n') /\
    SFltb (nadd (p_E out') (nmul (nZ 1) cEV)) (p_E out) = true.
Proof.
  destruct padded_runs as (mesh & mesh' & ion & p & q & n & n' & H1 & H2 & H3 & H4 & H5 & H6).
  exists mesh, mesh', ion, p, q, n, n'.
  split; [exact H1|]. split; [exact H2|]. split; [exists [], [nlit 85 (-3)]; repeat split|].
  split; [exact H3|]. split; [exact H4|]. split; [exact H5|]. exact H6.
Qed.
Print Assumptions C104_refuted_absent_species_in_the_first_place.

#[local] Remove Hints series_num : typeclass_instances.
(** ** The hypotheses are met *)
(** the unit-density target, its species entered as one quarter and three
    quarters; then with an absent species behind it *)
Definition quarters : Mesh0D R := {|
  m0_densities := [1/4; 3/4]; m0_concentrations := [1/4; 3/4]; m0_ck := 1; m0_energy_barrier_thickness := 2 / sqrt PI |}.
Definition two_tables (a b : R) (mesh : Mesh0D R) (Z m : R) : Material R := {|
  mat_m := [2; m]; mat_Z := [1; Z]; mat_Eb := [0; 0]; mat_Es := [a; b]; mat_Ec := [0; 0]; mat_Ed := [1; 1];
  mat_interaction_index := [0%nat; 0%nat]; mat_geometry := mesh0d_geometry mesh;
  mat_surface_binding_model := SBM_INDIVIDUAL; mat_bulk_binding_model := BBM_AVERAGE |}.
Example C104_nonvacuous_divided : species_divided 0 (r_material 3 1) (two_tables 3 3 quarters 1 2).
Proof.
  assert (D : forall x : R, doubled 0 [x] [x; x]) by (intro x; exists [], x, []; repeat split).
  assert (S : divided 0 [1] [1/4; 3/4]).
  { exists [], (1/4), (3/4), []. cbn [app length]. repeat split; try lra. f_equal. lra. }
  constructor; try apply D; try reflexivity.
  - exists [], 0%nat, []. repeat split.
  - constructor; intros; try reflexivity; exact S.
Qed.
Definition padded_r : Mesh0D R := {|
  m0_densities := [1; 0]; m0_concentrations := [1; 0]; m0_ck := 1; m0_energy_barrier_thickness := 2 / sqrt PI |}.
Example C104_nonvacuous_absent : absent_species_added 1 (r_material 3 1) (two_tables 3 7 padded_r 29 63).
Proof.
  assert (D : forall x y : R, inserted 1 y [x] [x; y]) by (intros x y; exists [x], []; repeat split).
  constructor; try (eexists; apply D); try reflexivity.
  - exists 0%nat, [0%nat], []. repeat split.
  - constructor; intros; try reflexivity; apply D.
Qed.
(** a target that lists an absent species, constructed from an input *)
Example C104_nonvacuous_half_space :
  0 < fold_right Rplus 0 [1] /\ divided 0 [1] [1/4; 3/4] /\ inserted 1 0 [1] [1; 0] /\
  mesh0d_new {| m0i_length_unit := LU_M; m0i_densities := [1]; m0i_ck := 1 |} = Ok (r_mesh 1).
Proof.
  split; [cbn; lra|]. split; [|split; [exists [1], []; repeat split|apply r_mesh_constructed]].
  exists [], (1/4), (3/4), []. cbn [app length]. repeat split; try lra. f_equal. lra.
Qed.
