(** * ProofsGeoValid.v *)
From Coq Require Import ZArith List Bool Arith Lia Reals Lra.
From Verif Require Import Num ModelTypes ModelConsts ModelGeometry ProofsBase NumR ProofsValid SpecGeoValid.
Import ListNotations.
Open Scope nat_scope.

Section GeoValid.
  Context {F : Type} {NF : Num F}.
  Lemma unit_value (u : LengthUnit F) : unit_known u -> length_unit_value u = Ok (metres u).
  Proof. unfold unit_known. destruct u as [| | | | | |[v|]]; try reflexivity. contradiction. Qed.
  Lemma unit_good (u : LengthUnit F) : good (length_unit_value u) <-> unit_known u.
  Proof.
    split; [|intro H; rewrite unit_value by exact H; apply good_ok].
    intros (v & H) E. rewrite E in H. discriminate H.
  Qed.
  Lemma after_unit {B} (u : LengthUnit F) (f : F -> Res B) : good (bind (length_unit_value u) f) <-> unit_known u /\ good (f (metres u)).
  Proof.
    rewrite good_bind. split.
    - intros (v & H & G). assert (K : unit_known u) by (apply unit_good; exists v; exact H). split; [exact K|]. rewrite (unit_value u K) in H.
      assert (E : metres u = v) by congruence. rewrite E. exact G.
    - intros (K & G). exists (metres u). split; [apply unit_value; exact K|exact G].
  Qed.
  Lemma rect_good (u : F) (rows : list (list F)) :
    good (rassert (forallb (fun row => Nat.eqb (length row) (length (nth 0 (map (convert_densities u) rows) []))) (map (convert_densities u) rows))) <-> rectangular rows.
  Proof.
    rewrite good_assert, forallb_forall. unfold rectangular.
    assert (L : forall r : list F, length (convert_densities u r) = length r) by (intro r; unfold convert_densities; apply map_length).
    split.
    - intros H r r' Hr Hr'. pose proof (H _ (in_map (convert_densities u) _ _ Hr)) as A. pose proof (H _ (in_map (convert_densities u) _ _ Hr')) as B.
      apply Nat.eqb_eq in A, B. rewrite L in A, B. congruence.
    - intros H x Hx. apply in_map_iff in Hx. destruct Hx as (r & <- & Hr). apply Nat.eqb_eq. rewrite L.
      destruct rows as [|r0 rows]; [destruct Hr|]. cbn [map nth]. rewrite L. apply H; [exact Hr|left; reflexivity].
  Qed.
  (** the layers *)
  Fixpoint increasing (u bottom : F) (ts : list F) : Prop :=
    match ts with
    | [] => True
    | t :: ts' => nlt bottom (nadd bottom (nmul t u)) = true /\ increasing u (nadd bottom (nmul t u)) ts'
    end.
  Lemma layers_good u : forall (rows : list ((F * list F) * F)) bottom,
    good (mesh1d_layers u bottom bottom rows) <-> increasing u bottom (map (fun r => fst (fst r)) rows).
  Proof.
    induction rows as [|((t, ds), ck) rows IH]; intro bottom; cbn [mesh1d_layers map fst increasing].
    - split; [intros _; exact I|intros _; apply good_ok].
    - unfold layer1d_new at 1. set (b := nadd bottom (nmul t u)).
      rewrite (good_seq _ _ (nlt bottom b = true) (increasing u b (map (fun r => fst (fst r)) rows))); [reflexivity| |].
      + rewrite (good_seq _ _ (nlt bottom b = true) True); [tauto|apply good_assert|]. intro a. split; [intros _; exact I|intros _; apply good_ok].
      + intro l. rewrite (good_seq _ _ (increasing u b (map (fun r => fst (fst r)) rows)) True); [tauto|apply IH|].
        intros (ls & bb). split; [intros _; exact I|intros _; apply good_ok].
  Qed.
  Lemma layers_length u : forall (rows : list ((F * list F) * F)) top bottom r, mesh1d_layers u top bottom rows = Ok r -> length (fst r) = length rows.
  Proof.
    induction rows as [|((t, ds), ck) rows IH]; intros top bottom r H; cbn [mesh1d_layers] in H.
    - assert (E : r = ([], bottom)) by congruence. rewrite E. reflexivity.
    - apply bind_ok in H. destruct H as (l & _ & H). apply bind_ok in H. destruct H as ((ls & bb) & H1 & H2). apply IH in H1. cbn [fst] in H1.
      assert (E : r = (l :: ls, bb)) by congruence. rewrite E. cbn [fst length]. congruence.
  Qed.
  Lemma increasing_depth u : forall ts bottom, increasing u bottom ts <->
    forall j, j < length ts -> nlt (fold_left (fun d t => nadd d (nmul t u)) (firstn j ts) bottom) (fold_left (fun d t => nadd d (nmul t u)) (firstn (S j) ts) bottom) = true.
  Proof.
    induction ts as [|t ts IH]; intro bottom; cbn [increasing length].
    - split; [intros _ j Hj; lia|intros _; exact I].
    - rewrite IH. split.
      + intros (H1 & H2) [|j] Hj; [exact H1|]. apply (H2 j). lia.
      + intro H. split; [apply (H 0); lia|]. intros j Hj. apply (H (S j)). lia.
  Qed.
  Lemma zip3_names (ts : list F) (ds : list (list F)) (cks : list F) : length ts = length ds ->
    map (fun r => fst (fst r)) (zip (zip ts ds) cks) = firstn (Nat.min (length ts) (length cks)) ts.
  Proof.
    revert ds cks. induction ts as [|t ts IH]; intros [|d ds] [|c cks] H; cbn in H; try discriminate H; try reflexivity.
    cbn [zip combine map fst length Nat.min firstn]. f_equal. apply IH. lia.
  Qed.
  Lemma zip3_length {A B C} (ts : list A) (ds : list B) (cks : list C) : length ts = length ds ->
    length (zip (zip ts ds) cks) = Nat.min (length ts) (length cks).
  Proof. intro H. unfold zip. rewrite !combine_length, <- H, Nat.min_id. reflexivity. Qed.
  Theorem layers_accepted (i : Mesh1DInput F) : good (mesh1d_new i) <-> consistent_layers i.
  Proof.
    unfold mesh1d_new. rewrite after_unit. set (u := metres (m1i_length_unit i)). cbv zeta.
    rewrite (good_seq _ _ (rectangular (m1i_densities i)) (length (m1i_layer_thicknesses i) = length (m1i_densities i) /\ 0 < layers_built i /\
       forall j, j < layers_built i -> nlt (depth u (m1i_layer_thicknesses i) j) (depth u (m1i_layer_thicknesses i) (S j)) = true)).
    - split; [intros (H1 & H2 & H3 & H4 & H5); constructor; assumption|intros [H1 H2 H3 H4 H5]; repeat split; assumption].
    - apply rect_good.
    - intros _. match goal with |- good (bind ?m ?f) <-> ?P /\ ?Q => enough (X : good (bind m f) <-> exists a, m = Ok a /\ (P /\ Q)) end.
      { rewrite X. split; [intros (a & _ & H); exact H|]. intro H. exists tt. split; [|exact H]. destruct H as (H & _). rewrite map_length, H, Nat.eqb_refl. reflexivity. }
      rewrite good_bind. split.
      + intros (a & Ha & G). exists a. split; [exact Ha|]. pose proof (rassert_ok _ _ Ha) as E. apply Nat.eqb_eq in E. rewrite map_length in E. split; [exact E|].
        apply good_bind in G. destruct G as ((ls & bb) & G1 & G2). pose proof (layers_length _ _ _ _ _ G1) as LL. cbn [fst] in LL.
        rewrite zip3_length in LL by (rewrite map_length; exact E). fold (layers_built i) in LL.
        apply good_bind in G2. destruct G2 as (l0 & G2 & _). assert (P : 0 < length ls) by (apply (proj1 (good_idx ls 0)); exists l0; exact G2). split; [lia|].
        assert (G1' : good (mesh1d_layers u (nZ 0%Z) (nZ 0%Z) (zip (zip (m1i_layer_thicknesses i) (map (convert_densities u) (m1i_densities i))) (m1i_cks i)))) by (eexists; exact G1).
        apply layers_good in G1'. rewrite zip3_names in G1' by (rewrite map_length; exact E). rewrite increasing_depth in G1'. fold (layers_built i) in G1'.
        intros j Hj. assert (LB : layers_built i <= length (m1i_layer_thicknesses i)) by (unfold layers_built; lia). specialize (G1' j). rewrite firstn_length in G1'. specialize (G1' ltac:(lia)).
        rewrite !firstn_firstn in G1'. rewrite !Nat.min_l in G1' by lia. exact G1'.
      + intros (a & Ha & E & P & T). exists a. split; [exact Ha|].
        assert (LB : layers_built i <= length (m1i_layer_thicknesses i)) by (unfold layers_built; lia).
        assert (G1 : good (mesh1d_layers u (nZ 0%Z) (nZ 0%Z) (zip (zip (m1i_layer_thicknesses i) (map (convert_densities u) (m1i_densities i))) (m1i_cks i)))).
        { apply layers_good. rewrite zip3_names by (rewrite map_length; exact E). fold (layers_built i). apply increasing_depth. rewrite firstn_length. intros j Hj.
          rewrite !firstn_firstn. rewrite !Nat.min_l by lia. apply T. lia. }
        destruct G1 as ((ls & bb) & G1). pose proof (layers_length _ _ _ _ _ G1) as LL. cbn [fst] in LL. rewrite zip3_length in LL by (rewrite map_length; exact E). fold (layers_built i) in LL.
        apply good_bind. exists (ls, bb). split; [exact G1|]. apply good_bind.
        destruct (proj2 (good_idx ls 0) ltac:(lia)) as (l0 & I0). destruct (proj2 (good_idx ls (length ls - 1)) ltac:(lia)) as (l1 & I1).
        exists l0. split; [exact I0|]. apply good_bind. exists l1. split; [exact I1|]. apply good_ok.
  Qed.
  (** the triangles *)
  Lemma cell_good u (points : list (F * F)) a b c ds ck :
    good (mesh2d_cell u points ((a, b, c), ds, ck)) <-> a < length points /\ b < length points /\ c < length points.
  Proof.
    unfold mesh2d_cell. rewrite (good_seq _ _ (a < length points) (b < length points /\ c < length points)); [tauto|apply good_idx|].
    intros pa. rewrite (good_seq _ _ (b < length points) (c < length points)); [tauto|apply good_idx|].
    intros pb. rewrite (good_seq _ _ (c < length points) True); [tauto|apply good_idx|]. intros pc. split; [intros _; exact I|intros _; apply good_ok].
  Qed.
  Lemma zip3_nth {A B C} (ts : list A) (ds : list B) (cks : list C) x : length ts = length ds -> In x (zip (zip ts ds) cks) ->
    exists j, j < Nat.min (length ts) (length cks) /\ nth_error ts j = Some (fst (fst x)).
  Proof.
    revert ds cks. induction ts as [|t ts IH]; intros [|d ds] [|c cks] H Hi; cbn in H, Hi; try discriminate H; try contradiction.
    destruct Hi as [<-|Hi].
    - exists 0. split; [cbn; lia|reflexivity].
    - destruct (IH ds cks ltac:(lia) Hi) as (j & H1 & H2). exists (S j). split; [cbn; lia|exact H2].
  Qed.
  Lemma zip3_in {A B C} (ts : list A) (ds : list B) (cks : list C) j t : length ts = length ds -> j < Nat.min (length ts) (length cks) -> nth_error ts j = Some t ->
    exists d c, In (t, d, c) (zip (zip ts ds) cks).
  Proof.
    revert ds cks j. induction ts as [|t0 ts IH]; intros [|d ds] [|c cks] j H Hj Ht; cbn in H, Hj; try discriminate H; try lia.
    destruct j as [|j].
    - cbn in Ht. assert (t0 = t) by congruence. subst t0. exists d, c. left. reflexivity.
    - destruct (IH ds cks j ltac:(lia) ltac:(lia) Ht) as (d' & c' & Hi). exists d', c'. right. exact Hi.
  Qed.
  Theorem mesh_accepted (mk : list (F * F) -> Polygon F) (i : Mesh2DInput F) : good (mesh2d_new mk i) <-> consistent_mesh i.
  Proof.
    unfold mesh2d_new. rewrite after_unit. set (u := metres (m2i_length_unit i)). cbv zeta.
    rewrite (good_seq _ _ (rectangular (m2i_densities i)) (length (m2i_triangles i) = length (m2i_densities i) /\
       (forall j a b c, j < cells_built i -> nth_error (m2i_triangles i) j = Some (a, b, c) ->
          a < length (m2i_points i) /\ b < length (m2i_points i) /\ c < length (m2i_points i)) /\
       Forall (fun k => k < length (m2i_points i)) (m2i_boundary i))).
    - split; [intros (H1 & H2 & H3 & H4 & H5); constructor; assumption|intros [H1 H2 H3 H4 H5]; repeat split; try assumption; apply (H4 _ _ _ _ H H0)].
    - apply rect_good.
    - intros _.
      assert (EE : good (rassert (Nat.eqb (length (m2i_triangles i)) (length (map (convert_densities u) (m2i_densities i))))) <-> length (m2i_triangles i) = length (m2i_densities i)).
      { rewrite good_assert, Nat.eqb_eq, map_length. tauto. }
      assert (BB : good (mapM (fun k => let! p := idx (m2i_points i) k in Ok (nmul (fst p) u, nmul (snd p) u)) (m2i_boundary i)) <-> Forall (fun k => k < length (m2i_points i)) (m2i_boundary i)).
      { rewrite good_mapM, Forall_forall. split; intros H k Hk; specialize (H k Hk).
        - apply good_bind in H. destruct H as (p & Hp & _). apply good_idx. exists p. exact Hp.
        - destruct (proj2 (good_idx (m2i_points i) k) H) as (p & Hp). apply good_bind. exists p. split; [exact Hp|apply good_ok]. }
      assert (CC : length (m2i_triangles i) = length (m2i_densities i) ->
        (good (mapM (mesh2d_cell u (m2i_points i)) (zip (zip (m2i_triangles i) (map (convert_densities u) (m2i_densities i))) (m2i_cks i))) <->
         forall j a b c, j < cells_built i -> nth_error (m2i_triangles i) j = Some (a, b, c) ->
          a < length (m2i_points i) /\ b < length (m2i_points i) /\ c < length (m2i_points i))).
      { intro E. rewrite good_mapM. split.
        - intros H j a b c Hj Hn. destruct (zip3_in (m2i_triangles i) (map (convert_densities u) (m2i_densities i)) (m2i_cks i) j (a, b, c) ltac:(rewrite map_length; exact E) Hj Hn) as (d & ck & Hi).
          specialize (H _ Hi). apply cell_good in H. exact H.
        - intros H ((((a & b) & c) & d) & ck) Hi. apply zip3_nth in Hi; [|rewrite map_length; exact E]. destruct Hi as (j & Hj & Hn). apply cell_good. apply (H j a b c Hj Hn). }
      rewrite good_bind. split.
      + intros (a & Ha & G). assert (E : length (m2i_triangles i) = length (m2i_densities i)) by (apply EE; exists a; exact Ha). split; [exact E|].
        apply good_bind in G. destruct G as (cs & G1 & G2). split; [apply (CC E); exists cs; exact G1|].
        apply good_bind in G2. destruct G2 as (bp & G2 & _). apply BB. exists bp. exact G2.
      + intros (E & H1 & H2). destruct (proj2 EE E) as (a & Ha). exists a. split; [exact Ha|]. apply good_bind. destruct (proj2 (CC E) H1) as (cs & Hc). exists cs. split; [exact Hc|].
        apply good_bind. destruct (proj2 BB H2) as (bp & Hb). exists bp. split; [exact Hb|apply good_ok].
  Qed.
End GeoValid.
