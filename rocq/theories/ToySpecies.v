(** * ToySpecies.v - 1 keV helium skimming along a copper surface (binary64),
    with and without an absent species listed in front of copper. *)
From Coq Require Import ZArith List Bool Floats.SpecFloat.
From Verif Require Import Num NumSF ToyLibm ModelTypes ModelConsts ModelParticle ModelGeometry ModelMaterial ModelBca ToyRun ToyLoss.
Import ListNotations.
Open Scope Z_scope.
Open Scope num_scope.
#[local] Existing Instance series_num.

(** nothing of the first species *)
Definition padded_input : Mesh0DInput spec_float :=
  {| m0i_length_unit := LU_ANGSTROM; m0i_densities := [nZ 0; nlit 85 (-3)]; m0i_ck := nZ 1 |}.
(** hydrogen, copper *)
Definition padded (mesh : Mesh0D spec_float) : Material spec_float := {|
  mat_m := [nZ 1 *! cAMU; nlit 6355 (-2) *! cAMU]; mat_Z := [nZ 1; nZ 29]; mat_Eb := [nZ 0; nZ 0];
  mat_Es := [nlit 352 (-2) *! cEV; nlit 352 (-2) *! cEV];
  mat_Ec := [nZ 3 *! cEV; nZ 3 *! cEV]; mat_Ed := [nZ 0; nZ 0]; mat_interaction_index := [0%nat; 0%nat];
  mat_geometry := mesh0d_geometry mesh;
  mat_surface_binding_model := SBM_INDIVIDUAL; mat_bulk_binding_model := BBM_AVERAGE |}.
Definition two_runs (target target' : Mesh0D spec_float -> Material spec_float) (i i' : Mesh0DInput spec_float)
    (options : Options spec_float) (fuel : nat) (p : ParticleInput spec_float) (l : list spec_float) :
    Res (Mesh0D spec_float * Mesh0D spec_float * Particle spec_float *
    (list (Particle spec_float) * nat) * (list (Particle spec_float) * nat)) :=
  let! mesh := mesh0d_new i in
  let! mesh' := mesh0d_new i' in
  let! ion := from_input p options in
  let! a := single_ion_bca None (target mesh) options fuel ion (draws l) 0%nat in
  let! b := single_ion_bca None (target' mesh') options fuel ion (draws l) 0%nat in
  Ok (mesh, mesh', ion, a, b).
Definition by_more_than (x a b : spec_float) : bool := SFltb (a +! x *! cEV) b.
Definition runs_differ (o : Mesh0D spec_float * Mesh0D spec_float * Particle spec_float *
    (list (Particle spec_float) * nat) * (list (Particle spec_float) * nat)) : bool :=
  match o with
  | (_, _, _, ([a], _), ([b], _)) => by_more_than (nZ 1) (p_E b) (p_E a)
  | _ => false
  end.
Lemma two_runs_inv target target' i i' options fuel p l (test : _ -> bool) :
  passes test (two_runs target target' i i' options fuel p l) = true ->
  exists mesh mesh' ion a b,
    mesh0d_new i = Ok mesh /\ mesh0d_new i' = Ok mesh' /\ from_input p options = Ok ion /\
    single_ion_bca None (target mesh) options fuel ion (draws l) 0%nat = Ok a /\
    single_ion_bca None (target' mesh') options fuel ion (draws l) 0%nat = Ok b /\
    test (mesh, mesh', ion, a, b) = true.
Proof.
  unfold two_runs. destruct (mesh0d_new i) as [mesh| |]; try discriminate. cbn [bind].
  destruct (mesh0d_new i') as [mesh'| |]; try discriminate. cbn [bind].
  destruct (from_input p options) as [ion| |]; try discriminate. cbn [bind].
  destruct (single_ion_bca None (target mesh) options fuel ion (draws l) 0%nat) as [a| |] eqn:Ea; try discriminate. cbn [bind].
  destruct (single_ion_bca None (target' mesh') options fuel ion (draws l) 0%nat) as [b| |] eqn:Eb; try discriminate. cbn [bind].
  cbn [passes]. intro H. exists mesh, mesh', ion, a, b. auto 10.
Qed.
Lemma padded_run : passes runs_differ (two_runs copper padded copper_input padded_input
  (plain_options LOW_ENERGY_LOCAL LIQUID 0) 20 skimming [nZ 0]) = true.
Proof. vm_compute. reflexivity. Qed.
Lemma padded_runs : exists mesh mesh' ion out out' n n',
    mesh0d_new copper_input = Ok mesh /\ mesh0d_new padded_input = Ok mesh' /\
    from_input skimming (plain_options LOW_ENERGY_LOCAL LIQUID 0) = Ok ion /\
    single_ion_bca None (copper mesh) (plain_options LOW_ENERGY_LOCAL LIQUID 0) 20 ion (draws [nZ 0]) 0%nat = Ok ([out], n) /\
    single_ion_bca None (padded mesh') (plain_options LOW_ENERGY_LOCAL LIQUID 0) 20 ion (draws [nZ 0]) 0%nat = Ok ([out'], n') /\
    by_more_than (nZ 1) (p_E out') (p_E out) = true.
Proof.
  destruct (two_runs_inv _ _ _ _ _ _ _ _ _ padded_run) as (mesh & mesh' & ion & [a n] & [b n'] & H1 & H2 & H3 & H4 & H5 & H6).
  unfold runs_differ in H6. destruct a as [|p [|? ?]]; try discriminate H6. destruct b as [|q [|? ?]]; try discriminate H6.
  exists mesh, mesh', ion, p, q, n, n'.
  split; [exact H1|]. split; [exact H2|]. split; [exact H3|]. split; [exact H4|]. split; [exact H5|]. exact H6.
Qed.
