(** * PropertiesGeoValid.v - C120: which geometries are accepted *)
From Coq Require Import ZArith List Bool Arith Lia Reals Lra.
From Verif Require Import Num ModelTypes ModelConsts ModelGeometry ProofsBase NumR ProofsValid SpecGeoValid ProofsGeoValid.
Import ListNotations.
Open Scope nat_scope.

Section C120.
  Context {F : Type} {NF : Num F}.
Theorem C120_homogeneous_targets :
    (forall i : Mesh0DInput F, (exists g, mesh0d_new i = Ok g) <-> unit_known (m0i_length_unit i)) /\
    (forall i : SphereInput F, (exists g, sphere_new i = Ok g) <-> unit_known (si_length_unit i)) /\
    (forall mk (i : SphereInput F), (exists g, parryball_new mk i = Ok g) <-> unit_known (si_length_unit i)) /\
    (forall mk (i : ParryTriMeshInput F), (exists g, parrytrimesh_new mk i = Ok g) <-> unit_known (pti_length_unit i)) /\
    (forall mk (i : HomogeneousMesh2DInput F), (exists g, homogeneous2d_new mk i = Ok g) <-> unit_known (h2i_length_unit i)).
  Proof.
    repeat split; intros H.
    all: try (match goal with |- exists _, ?m = Ok _ => change (good m) end).
    all: try (match type of H with exists _, ?m = Ok _ => change (good m) in H end).
    all: unfold mesh0d_new, sphere_new, parryball_new, parrytrimesh_new, homogeneous2d_new in *; cbv zeta in *.
    all: try (apply after_unit in H; exact (proj1 H)).
    all: apply after_unit; split; [exact H|apply good_ok].
  Qed.
  (** the same for every number type: a layer is refused when its lower boundary,
      as computed, is not below its upper one *)
Theorem C120_layered_targets :
    forall i : Mesh1DInput F, (exists g, mesh1d_new i = Ok g) <-> consistent_layers i.
  Proof. exact layers_accepted. Qed.
Theorem C120_meshed_targets :
    forall (mk : list (F * F) -> Polygon F) (i : Mesh2DInput F), (exists g, mesh2d_new mk i = Ok g) <-> consistent_mesh i.
  Proof. exact mesh_accepted. Qed.
End C120.
Print Assumptions C120_homogeneous_targets.
Print Assumptions C120_layered_targets.
Print Assumptions C120_meshed_targets.
Open Scope R_scope.
Lemma fold_shift u : forall ts d, fold_left (fun d t => nadd d (nmul t u)) ts d = d + fold_left (fun d t => nadd d (nmul t u)) ts (0 : R).
Proof.
  induction ts as [|t ts IH]; intro d; cbn [fold_left]; [toR; ring|]. rewrite (IH (nadd d _)), (IH (nadd 0 _)). toR. ring.
Qed.
Lemma depth_step (u : R) ts j t : nth_error ts j = Some t -> depth u ts (S j) = depth u ts j + t * u.
Proof.
  unfold depth. generalize (nZ 0%Z : R). revert j. induction ts as [|t0 ts IH]; intros [|j] d H; cbn in H; try discriminate H.
  - assert (t0 = t) by congruence. subst t0. cbn [firstn fold_left]. toR. reflexivity.
  - cbn [firstn fold_left]. apply (IH j (nadd d (nmul t0 u))). exact H.
Qed.
(** over the real numbers the condition is that every layer is thick *)
Theorem C120_layers_are_thick :
  forall i : Mesh1DInput R, (exists g, mesh1d_new i = Ok g) <->
    unit_known (m1i_length_unit i) /\ rectangular (m1i_densities i) /\
    length (m1i_layer_thicknesses i) = length (m1i_densities i) /\ (0 < layers_built i)%nat /\ thick_layers i.
Proof.
  intro i. rewrite C120_layered_targets. unfold thick_layers.
  assert (Q : (forall j, (j < layers_built i)%nat ->
      nlt (depth (metres (m1i_length_unit i)) (m1i_layer_thicknesses i) j) (depth (metres (m1i_length_unit i)) (m1i_layer_thicknesses i) (S j)) = true) <->
    (forall j t, (j < layers_built i)%nat -> nth_error (m1i_layer_thicknesses i) j = Some t -> 0 < t * metres (m1i_length_unit i))).
  { split.
    - intros H j t Hj Ht. specialize (H j Hj). rewrite (depth_step _ _ j t Ht) in H. apply nlt_true in H. lra.
    - intros H j Hj. destruct (nth_error (m1i_layer_thicknesses i) j) as [t|] eqn:Ht.
      + specialize (H j t Hj Ht). rewrite (depth_step _ _ j t Ht). apply nlt_true. lra.
      + exfalso. apply nth_error_None in Ht. unfold layers_built in Hj. lia. }
  split.
  - intros [H1 H2 H3 H4 H5]. repeat split; try assumption. apply Q. exact H5.
  - intros (H1 & H2 & H3 & H4 & H5). constructor; try assumption. apply Q. exact H5.
Qed.
Print Assumptions C120_layers_are_thick.
(** both outcomes occur *)
Example C120_met :
  thick_layers (mkMesh1DInput LU_ANGSTROM [1; 2] [[1]; [1]] [1; 1]) /\ ~ thick_layers (mkMesh1DInput LU_M [1; -1] [[1]; [1]] [1; 1]) /\
  consistent_mesh (mkMesh2DInput (LU_M : LengthUnit R) [(0%nat, 1%nat, 2%nat)] [(0, 0); (1, 0); (0, 1)] [0%nat; 1%nat; 2%nat] [] [[1]] [1] 1) /\
  ~ consistent_mesh (mkMesh2DInput (LU_M : LengthUnit R) [(0%nat, 1%nat, 3%nat)] [(0, 0); (1, 0); (0, 1)] [0%nat; 1%nat; 2%nat] [] [[1]] [1] 1).
Proof.
  split; [|split; [|split]].
  - intros j t Hj Ht. unfold metres. cbn [m1i_length_unit]. unfold layers_built in Hj. cbn in Hj. cbn [m1i_layer_thicknesses] in Ht.
    assert (A : 0 < (cANGSTROM : R)) by (unfold cANGSTROM; rewrite nlit_neg; apply Rdiv_lt_0_compat; apply IZR_lt; reflexivity).
    destruct j as [|[|j]]; cbn in Ht; [| |lia]; assert (t = 1 \/ t = 2) as [-> | ->] by (injection Ht; lra); lra.
  - intro H. specialize (H 1%nat (-1) ltac:(cbn; lia) eq_refl). unfold metres in H. cbn [m1i_length_unit] in H. rewrite nZ_R in H. lra.
  - constructor; cbn.
    + discriminate.
    + intros r r' [<-|[]] [<-|[]]. reflexivity.
    + reflexivity.
    + intros [|j] a b c Hj H; cbn in H; [injection H as <- <- <-; lia|unfold cells_built in Hj; cbn in Hj; lia].
    + repeat constructor.
  - intros [_ _ _ H _]. destruct (H 0%nat 0%nat 1%nat 3%nat ltac:(cbn; lia) eq_refl) as (_ & _ & L). cbn in L. lia.
Qed.
