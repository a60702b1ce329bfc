(** * ProofsGeometry.v - geometry.rs, sphere.rs, parry.rs in exact arithmetic *)
From Coq Require Import ZArith List Bool Lia Reals Lra.
From Verif Require Import Num ModelTypes ModelConsts ModelGeometry ProofsBase NumR SpecR ProofsSampling.
Import ListNotations.
Open Scope R_scope.

Lemma Ok_inj {A} (x y : A) : Ok x = Ok y -> x = y.
Proof. congruence. Qed.

(** ** barrier thickness and concentrations *)
Lemma thickness_pos (ds : list R) : 0 < Rsum ds -> 0 < barrier_thickness_of ds.
Proof.
  intros H. unfold barrier_thickness_of. rewrite nsum_R. fold (Rsum ds). rewrite npowf_pos by exact H.
  rewrite cSQRTPI_R. toR. pose proof sqrt_pi_pos.
  apply Rmult_lt_0_compat; [apply Rdiv_lt_0_compat; [unfold Rpower; apply exp_pos|assumption]|lra].
Qed.
Lemma concentrations_R (ds : list R) : concentrations_of ds = map (fun d => d / Rsum ds) ds.
Proof. unfold concentrations_of. rewrite nsum_R. reflexivity. Qed.
Lemma Rsum_scale (ds : list R) s : Rsum (map (fun d => d / s) ds) = Rsum ds / s.
Proof. induction ds as [|d ds IH]; unfold Rsum in *; cbn [map fold_right]; [unfold Rdiv; ring|]. rewrite IH. unfold Rdiv. ring. Qed.
Lemma Rsum_nonneg' l : Forall (fun x => 0 <= x) l -> 0 <= Rsum l.
Proof. induction 1 as [|x l Hx _ IH]; unfold Rsum in *; cbn [fold_right]; lra. Qed.
Lemma Rsum_ge_each' (l : list R) : Forall (fun e => 0 <= e) l -> Forall (fun e => e <= Rsum l) l.
Proof.
  induction 1 as [|e l He Hl IH]; [constructor|].
  pose proof (Rsum_nonneg' _ Hl). constructor; unfold Rsum in *; cbn [fold_right]; [lra|].
  eapply Forall_impl; [|exact IH]. cbn. intros; lra.
Qed.
Lemma concentrations_probability (ds : list R) :
  Forall (fun d => 0 <= d) ds -> 0 < Rsum ds ->
  Forall (fun c => 0 <= c <= 1) (concentrations_of ds) /\ Rsum (concentrations_of ds) = 1 /\
  length (concentrations_of ds) = length ds.
Proof.
  intros Hd Hs. rewrite concentrations_R. split; [|split; [rewrite Rsum_scale; field; lra|apply map_length]].
  apply Forall_forall. intros c Hc. apply in_map_iff in Hc. destruct Hc as (d & <- & Hin).
  pose proof (Rsum_ge_each' _ Hd) as He. rewrite Forall_forall in He. specialize (He d Hin).
  rewrite Forall_forall in Hd. specialize (Hd d Hin).
  split; [apply Rle_mult_inv_pos; assumption|].
  apply Rmult_le_reg_r with (Rsum ds); [exact Hs|]. replace (d / Rsum ds * Rsum ds) with d by (field; lra). lra.
Qed.
Lemma convert_R u (ds : list R) : convert_densities u ds = map (fun d => d / (u * u * u)) ds.
Proof. unfold convert_densities. apply map_ext. intros d. rewrite npowi3_R. reflexivity. Qed.
Lemma convert_pos u (ds : list R) : 0 < u -> Forall (fun d => 0 <= d) ds -> 0 < Rsum ds ->
  Forall (fun d => 0 <= d) (convert_densities u ds) /\ 0 < Rsum (convert_densities u ds).
Proof.
  intros Hu Hd Hs. rewrite convert_R.
  assert (Hu3 : 0 < u * u * u) by (repeat apply Rmult_lt_0_compat; assumption). split.
  - apply Forall_forall. intros c Hc. apply in_map_iff in Hc. destruct Hc as (d & <- & Hin).
    rewrite Forall_forall in Hd. apply Rle_mult_inv_pos; [auto|exact Hu3].
  - rewrite Rsum_scale. apply Rdiv_lt_0_compat; assumption.
Qed.

(** ** Mesh1D: the layers are a chain *)
Inductive chain : R -> list (Layer1D R) -> R -> Prop :=
| chain_nil : forall a, chain a [] a
| chain_cons : forall l ls b, l_top l < l_bottom l -> chain (l_bottom l) ls b -> chain (l_top l) (l :: ls) b.
Lemma layers_chain u : forall rows top layers bottom,
  mesh1d_layers u top top rows = Ok (layers, bottom) -> chain top layers bottom.
Proof.
  induction rows as [|[[t ds] ck] rows IH]; intros top layers bottom H; cbn [mesh1d_layers] in H.
  - injection H as <- <-. constructor.
  - unfold layer1d_new in H. apply bind_ok in H. destruct H as (l & Hl & H).
    apply bind_ok in Hl. destruct Hl as (? & Ha & Hl). apply rassert_ok in Ha. apply nlt_true in Ha.
    apply bind_ok in H. destruct H as ([ls b] & Hls & H). injection H as <- <-. apply IH in Hls.
    injection Hl as <-.
    match goal with |- chain _ (?l :: _) _ => change top with (l_top l) end. constructor; assumption.
Qed.
Lemma chain_le a ls b : chain a ls b -> a <= b.
Proof. induction 1; lra. Qed.
Lemma chain_lt a ls b : chain a ls b -> ls <> [] -> a < b.
Proof. intros H Hne. destruct H; [congruence|]. apply chain_le in H0. lra. Qed.
Lemma chain_in a ls b i l : chain a ls b -> nth_error ls i = Some l -> a <= l_top l /\ l_top l < l_bottom l /\ l_bottom l <= b.
Proof.
  intros H. revert i. induction H as [|l0 ls b Hl Hc IH]; intros [|i] Hn; cbn in Hn; try discriminate.
  - injection Hn as <-. apply chain_le in Hc. lra.
  - apply IH in Hn. lra.
Qed.
Lemma chain_tiles a ls b x : chain a ls b -> a < x <= b ->
  exists i l, nth_error ls i = Some l /\ l_top l < x <= l_bottom l /\
    find (fun l => layer_contains l x) ls = Some l /\
    (forall j l', nth_error ls j = Some l' -> l_top l' < x <= l_bottom l' -> j = i).
Proof.
  induction 1 as [a|l ls b Hl Hc IH]; intros Hx; [lra|].
  cbn [find]. unfold layer_contains at 1.
  destruct (Rle_dec x (l_bottom l)) as [Hle|Hgt].
  - exists 0%nat, l. split; [reflexivity|]. split; [lra|].
    replace (nlt (l_top l) x) with true by (symmetry; apply nlt_true; lra).
    replace (nle x (l_bottom l)) with true by (symmetry; apply nle_true; lra). split; [reflexivity|].
    intros [|j] l' Hn Hb; [reflexivity|]. cbn in Hn. apply (chain_in _ _ _ _ _ Hc) in Hn. lra.
  - replace (nle x (l_bottom l)) with false by (symmetry; apply nle_false; lra). rewrite andb_false_r.
    destruct (IH ltac:(lra)) as (i & l0 & Hn & Hb & Hf & Hu).
    exists (S i), l0. split; [exact Hn|]. split; [exact Hb|]. split; [exact Hf|].
    intros [|j] l' Hn' Hb'; cbn in Hn'; [injection Hn' as <-; lra|]. f_equal. eapply Hu; eassumption.
Qed.
Lemma layers_length u : forall rows top layers bottom,
  mesh1d_layers u top top rows = Ok (layers, bottom) -> length layers = length rows /\
  bottom = top + Rsum (map (fun row => fst (fst row)) rows) * u.
Proof.
  induction rows as [|[[t ds] ck] rows IH]; intros top layers bottom H; cbn [mesh1d_layers] in H.
  - injection H as <- <-. cbn. split; [reflexivity|ring].
  - apply bind_ok in H. destruct H as (l & Hl & H).
    apply bind_ok in H. destruct H as ([ls b] & Hls & H). injection H as <- <-. apply IH in Hls.
    destruct Hls as (Hlen & ->). split; [cbn; congruence|]. unfold Rsum. cbn [map fst fold_right]. toR. ring.
Qed.
Lemma layers_data u : forall rows top layers bottom,
  mesh1d_layers u top top rows = Ok (layers, bottom) ->
  Forall2 (fun row l => l_densities l = snd (fst row) /\ l_concentrations l = concentrations_of (snd (fst row)) /\ l_ck l = snd row /\
                        l_bottom l = l_top l + fst (fst row) * u) rows layers.
Proof.
  induction rows as [|[[t ds] ck] rows IH]; intros top layers bottom H; cbn [mesh1d_layers] in H.
  - injection H as <- <-. constructor.
  - apply bind_ok in H. destruct H as (l & Hl & H).
    apply bind_ok in H. destruct H as ([ls b] & Hls & H). injection H as <- <-. apply IH in Hls.
    unfold layer1d_new in Hl. apply bind_ok in Hl. destruct Hl as (? & Ha & Hl). injection Hl as <-.
    constructor; [|exact Hls]. cbn. auto.
Qed.

(** everything the constructor establishes *)
Lemma mesh1d_new_inv input g : mesh1d_new input = Ok g ->
  exists u rows first last,
    length_unit_value (m1i_length_unit input) = Ok u /\
    rows = combine (combine (m1i_layer_thicknesses input) (map (convert_densities u) (m1i_densities input))) (m1i_cks input) /\
    length (m1i_layer_thicknesses input) = length (m1i_densities input) /\
    mesh1d_layers u 0 0 rows = Ok (m1_layers g, m1_bottom g) /\
    m1_top g = 0 /\
    nth_error (m1_layers g) 0 = Some first /\ nth_error (m1_layers g) (length (m1_layers g) - 1) = Some last /\
    m1_top_energy_barrier_thickness g = barrier_thickness_of (l_densities first) /\
    m1_bottom_energy_barrier_thickness g = barrier_thickness_of (l_densities last).
Proof.
  unfold mesh1d_new. intros H.
  apply bind_ok in H. destruct H as (u & Hu & H).
  apply bind_ok in H. destruct H as (? & _ & H).
  apply bind_ok in H. destruct H as (? & Hlen & H). apply rassert_ok in Hlen. apply Nat.eqb_eq in Hlen. rewrite map_length in Hlen.
  apply bind_ok in H. destruct H as ([layers bottom] & Hl & H).
  apply bind_ok in H. destruct H as (first & Hf & H). apply bind_ok in H. destruct H as (last & Hla & H).
  apply idx_ok in Hf, Hla. rewrite nZ_R in *.
  exists u, (combine (combine (m1i_layer_thicknesses input) (map (convert_densities u) (m1i_densities input))) (m1i_cks input)), first, last.
  assert (Hg : g = {| m1_layers := layers; m1_top := 0; m1_bottom := bottom;
          m1_top_energy_barrier_thickness := barrier_thickness_of (l_densities first);
          m1_bottom_energy_barrier_thickness := barrier_thickness_of (l_densities last) |}) by congruence.
  subst g. cbn [m1_layers m1_top m1_bottom m1_top_energy_barrier_thickness m1_bottom_energy_barrier_thickness]. auto 10.
Qed.

Lemma mesh1d_select_spec input g x : mesh1d_new input = Ok g ->
  exists i l, mesh1d_select g x = Ok l /\ nth_error (m1_layers g) i = Some l /\
    (x < m1_top g -> i = 0%nat) /\
    (m1_top g < x < m1_bottom g -> l_top l < x <= l_bottom l /\
       forall j l', nth_error (m1_layers g) j = Some l' -> l_top l' < x <= l_bottom l' -> j = i) /\
    (x = m1_top g \/ m1_bottom g <= x -> S i = length (m1_layers g)).
Proof.
  intros H. apply mesh1d_new_inv in H.
  destruct H as (u & rows & first & last & _ & _ & _ & Hl & Ht & Hf & Hla & _ & _).
  pose proof (layers_chain _ _ _ _ _ Hl) as Hc.
  assert (Hne : m1_layers g <> []) by (destruct (m1_layers g); [discriminate Hf|discriminate]).
  pose proof (chain_lt _ _ _ Hc Hne) as Hlt.
  assert (Hlen : (0 < length (m1_layers g))%nat) by (destruct (m1_layers g); [congruence|cbn; lia]).
  unfold mesh1d_select, mesh1d_inside. rewrite Ht.
  destruct (Rlt_dec 0 x) as [H1|H1]; [destruct (Rlt_dec x (m1_bottom g)) as [H2|H2]|].
  - replace (nlt 0 x) with true by (symmetry; apply nlt_true; exact H1).
    replace (nlt x (m1_bottom g)) with true by (symmetry; apply nlt_true; exact H2). cbn [andb].
    destruct (chain_tiles _ _ _ x Hc ltac:(lra)) as (i & l & Hn & Hb & Hfind & Hu). rewrite Hfind.
    exists i, l. split; [reflexivity|]. split; [exact Hn|]. split; [lra|]. split; [auto|intros [?|?]; exfalso; lra].
  - replace (nlt 0 x) with true by (symmetry; apply nlt_true; exact H1).
    replace (nlt x (m1_bottom g)) with false by (symmetry; apply nlt_false; lra). cbn [andb].
    replace (nlt x 0) with false by (symmetry; apply nlt_false; lra).
    exists (length (m1_layers g) - 1)%nat, last. unfold idx. rewrite Hla. split; [reflexivity|]. split; [reflexivity|].
    split; [lra|]. split; [lra|]. lia.
  - replace (nlt 0 x) with false by (symmetry; apply nlt_false; lra). cbn [andb].
    destruct (nlt x 0) eqn:E; bool_R.
    + exists 0%nat, first. unfold idx. rewrite Hf. split; [reflexivity|]. split; [reflexivity|].
      split; [reflexivity|]. split; [lra|intros [?|?]; exfalso; lra].
    + exists (length (m1_layers g) - 1)%nat, last. unfold idx. rewrite Hla. split; [reflexivity|]. split; [reflexivity|].
      split; [lra|]. split; [lra|]. lia.
Qed.

(** ** triangles *)
Definition tri_det (x1 y1 x2 y2 x3 y3 : R) : R := (y2 - y3) * (x1 - x3) + (x3 - x2) * (y1 - y3).
Lemma triangle_contains_hull x1 x2 x3 y1 y2 y3 x y :
  tri_det x1 y1 x2 y2 x3 y3 <> 0 ->
  triangle_contains (triangle_new x1 x2 x3 y1 y2 y3) x y = true <-> in_hull x1 y1 x2 y2 x3 y3 x y.
Proof.
  intros Hd. unfold tri_det in Hd. unfold triangle_contains, triangle_new.
  cbn [t_x1 t_x2 t_x3 t_y1 t_y2 t_y3]. rewrite !nZ_R.
  change (@nadd R NumR) with Rplus. change (@nsub R NumR) with Rminus.
  change (@nmul R NumR) with Rmult. change (@ndiv R NumR) with Rdiv. cbv zeta.
  set (a := ((y2 - y3) * (x - x3) + (x3 - x2) * (y - y3)) / _).
  set (b := ((y3 - y1) * (x - x3) + (x1 - x3) * (y - y3)) / _).
  rewrite !andb_true_iff, !nle_true.
  assert (Hx : x = a * x1 + b * x2 + (1 - a - b) * x3) by (unfold a, b; field; exact Hd).
  assert (Hy : y = a * y1 + b * y2 + (1 - a - b) * y3) by (unfold a, b; field; exact Hd).
  split.
  - intros (((((H1 & H2) & H3) & H4) & H5) & H6). exists a, b, (1 - a - b). repeat split; try lra; assumption.
  - intros (a' & b' & c' & Ha & Hb & Hc & Hs & Hx' & Hy').
    assert (Ea : a = a').
    { unfold a. rewrite Hx', Hy'. replace c' with (1 - a' - b') by lra. field. exact Hd. }
    assert (Eb : b = b').
    { unfold b. rewrite Hx', Hy'. replace c' with (1 - a' - b') by lra. field. exact Hd. }
    rewrite Ea, Eb. repeat split; lra.
Qed.

Lemma dist2_sq px py qx qy : 0 <= (px - qx) * (px - qx) + (py - qy) * (py - qy).
Proof. pose proof (Rle_0_sqr (px - qx)). pose proof (Rle_0_sqr (py - qy)). unfold Rsqr in *. lra. Qed.
Lemma sq_zero a b : a * a + b * b = 0 -> a = 0 /\ b = 0.
Proof.
  intros H. pose proof (Rle_0_sqr a). pose proof (Rle_0_sqr b). unfold Rsqr in *.
  split; apply Rsqr_0_uniq; unfold Rsqr; lra.
Qed.
Lemma dist2_le px py qx qy rx ry :
  (px - qx) * (px - qx) + (py - qy) * (py - qy) <= (px - rx) * (px - rx) + (py - ry) * (py - ry) ->
  dist2 px py qx qy <= dist2 px py rx ry.
Proof. intros H. unfold dist2. apply sqrt_le_1_alt. exact H. Qed.

Lemma segment_distance_spec ax ay bx by' x y :
  (bx - ax) * (bx - ax) + (by' - ay) * (by' - ay) <> 0 ->
  exists d, segment_distance (ax, ay, bx, by') x y = Ok d /\ 0 <= d /\
    is_distance_to (on_segment ax ay bx by') x y d.
Proof.
  intros HL. unfold segment_distance. rewrite !nZ_R.
  change (@nadd R NumR) with Rplus. change (@nsub R NumR) with Rminus.
  change (@nmul R NumR) with Rmult. change (@ndiv R NumR) with Rdiv. change (@nsqrt R NumR) with sqrt. cbv zeta.
  set (L := (bx - ax) * (bx - ax) + (by' - ay) * (by' - ay)) in *.
  replace (neqb L 0) with false by (symmetry; apply neqb_false; exact HL). cbn [negb rassert bind].
  assert (HLp : 0 < L) by (pose proof (Rle_0_sqr (bx - ax)); pose proof (Rle_0_sqr (by' - ay)); unfold Rsqr in *; unfold L in *; lra).
  set (w := (x - ax) * (bx - ax) + (y - ay) * (by' - ay)).
  set (u := w / L). assert (Hu : w = u * L) by (unfold u; field; lra).
  (* squared distance to the point with parameter t *)
  assert (Hq : forall t, (x - (ax + t * (bx - ax))) * (x - (ax + t * (bx - ax))) + (y - (ay + t * (by' - ay))) * (y - (ay + t * (by' - ay)))
     = ((x - ax) * (x - ax) + (y - ay) * (y - ay)) - 2 * t * w + t * t * L) by (intros t; unfold w, L; ring).
  destruct (nlt u 0) eqn:E1; bool_R; [|destruct (nlt 1 u) eqn:E2; bool_R].
  - eexists. split; [reflexivity|]. split; [apply sqrt_pos|]. split.
    + exists ax, ay. split; [exists 0; split; [lra|split; ring]|reflexivity].
    + intros px py (t & Ht & -> & ->). apply dist2_le. rewrite Hq, Hu.
      assert (0 <= t * (t - 2 * u) * L) by (repeat apply Rmult_le_pos; lra). lra.
  - eexists. split; [reflexivity|]. split; [apply sqrt_pos|]. split.
    + exists bx, by'. split; [exists 1; split; [lra|split; ring]|reflexivity].
    + intros px py (t & Ht & -> & ->). apply dist2_le. rewrite Hq.
      replace ((x - bx) * (x - bx) + (y - by') * (y - by')) with
        ((x - ax) * (x - ax) + (y - ay) * (y - ay) - 2 * 1 * w + 1 * 1 * L) by (unfold w, L; ring).
      rewrite Hu. assert (0 <= (1 - t) * (2 * u - 1 - t) * L) by (repeat apply Rmult_le_pos; lra). lra.
  - eexists. split; [reflexivity|]. split; [apply sqrt_pos|]. split.
    + exists (ax + u * (bx - ax)), (ay + u * (by' - ay)). split; [exists u; split; [lra|split; ring]|reflexivity].
    + intros px py (t & Ht & -> & ->). apply dist2_le. rewrite !Hq, Hu. 
      assert (0 <= (t - u) * (t - u) * L) by (apply Rmult_le_pos; [apply Rle_0_sqr|lra]). lra.
Qed.
Lemma segment_distance_panic ax ay bx by' x y k :
  segment_distance (ax, ay, bx, by') x y = Panic k <->
  k = AssertFail /\ (bx - ax) * (bx - ax) + (by' - ay) * (by' - ay) = 0.
Proof.
  unfold segment_distance. rewrite !nZ_R.
  change (@nadd R NumR) with Rplus. change (@nsub R NumR) with Rminus. change (@nmul R NumR) with Rmult. cbv zeta.
  set (L := (bx - ax) * (bx - ax) + (by' - ay) * (by' - ay)).
  destruct (neqb L 0) eqn:E; bool_R; cbn [negb rassert bind]; split; intros H.
  - injection H as <-. auto.
  - destruct H as (-> & _). reflexivity.
  - discriminate.
  - tauto.
Qed.

Definition union {A B} (P Q : A -> B -> Prop) : A -> B -> Prop := fun a b => P a b \/ Q a b.
Definition sides (x1 y1 x2 y2 x3 y3 : R) : R -> R -> Prop :=
  union (on_segment x1 y1 x2 y2) (union (on_segment x2 y2 x3 y3) (on_segment x3 y3 x1 y1)).
Definition MAXF : R := IZR ((2 ^ 53 - 1) * 2 ^ 971).
Lemma MAXF_big : 1 < MAXF.
Proof. unfold MAXF. apply IZR_lt. reflexivity. Qed.
Lemma nmax_R : (nmax_value : R) = MAXF. Proof. reflexivity. Qed.

Lemma min_if (a b : R) : (if nlt a b then a else b) = Rmin a b.
Proof. unfold Rmin. destruct (nlt a b) eqn:E; bool_R; destruct (Rle_dec a b); lra. Qed.
Lemma triangle_distance_spec x1 x2 x3 y1 y2 y3 x y :
  (x1, y1) <> (x2, y2) -> (x2, y2) <> (x3, y3) -> (x3, y3) <> (x1, y1) ->
  exists d0, is_distance_to (sides x1 y1 x2 y2 x3 y3) x y d0 /\ 0 <= d0 /\
    triangle_distance_to (triangle_new x1 x2 x3 y1 y2 y3) x y = Ok (Rmin d0 MAXF).
Proof.
  intros H1 H2 H3.
  assert (Hne : forall ax ay bx by', (ax, ay) <> (bx, by') -> (bx - ax) * (bx - ax) + (by' - ay) * (by' - ay) <> 0).
  { intros ax ay bx by' Hd E. apply Hd. destruct (sq_zero _ _ E). f_equal; lra. }
  destruct (segment_distance_spec x1 y1 x2 y2 x y (Hne _ _ _ _ H1)) as (d1 & E1 & P1 & (A1 & M1)).
  destruct (segment_distance_spec x2 y2 x3 y3 x y (Hne _ _ _ _ H2)) as (d2 & E2 & P2 & (A2 & M2)).
  destruct (segment_distance_spec x3 y3 x1 y1 x y (Hne _ _ _ _ H3)) as (d3 & E3 & P3 & (A3 & M3)).
  unfold triangle_distance_to, triangle_new. cbn [t_segments segments_distance]. rewrite E1. cbn [bind]. rewrite E2. cbn [bind]. rewrite E3. cbn [bind].
  rewrite nmax_R.
  exists (Rmin d1 (Rmin d2 d3)). split; [|split].
  - split.
    + destruct A1 as (p1 & q1 & S1 & D1), A2 as (p2 & q2 & S2 & D2), A3 as (p3 & q3 & S3 & D3).
      unfold Rmin. destruct (Rle_dec d2 d3), (Rle_dec d1 _).
      * exists p1, q1. split; [left; assumption|assumption].
      * exists p2, q2. split; [right; left; assumption|assumption].
      * exists p1, q1. split; [left; assumption|assumption].
      * exists p3, q3. split; [right; right; assumption|assumption].
    + intros px py [S|[S|S]].
      * apply M1 in S. eapply Rle_trans; [apply Rmin_l|exact S].
      * apply M2 in S. eapply Rle_trans; [apply Rmin_r|]. eapply Rle_trans; [apply Rmin_l|exact S].
      * apply M3 in S. eapply Rle_trans; [apply Rmin_r|]. eapply Rle_trans; [apply Rmin_r|exact S].
  - repeat apply Rmin_glb; assumption.
  - f_equal. generalize MAXF. intros M. rewrite !min_if. unfold Rmin.
    repeat match goal with
    | |- context [Rle_dec ?a ?b] => is_var a; is_var b; destruct (Rle_dec a b)
    end; lra.
Qed.
Lemma triangle_distance_panic x1 x2 x3 y1 y2 y3 x y :
  (exists k, triangle_distance_to (triangle_new x1 x2 x3 y1 y2 y3) x y = Panic k) <->
  (x1, y1) = (x2, y2) \/ (x2, y2) = (x3, y3) \/ (x3, y3) = (x1, y1).
Proof.
  assert (Hsq : forall ax ay bx by' : R, (bx - ax) * (bx - ax) + (by' - ay) * (by' - ay) = 0 <-> (ax, ay) = (bx, by')).
  { intros ax ay bx by'. split.
    - intros E. destruct (sq_zero _ _ E). f_equal; lra.
    - intros E. injection E as -> ->. ring. }
  split.
  - intros (k & H). unfold triangle_distance_to, triangle_new in H. cbn [t_segments segments_distance] in H.
    destruct (segment_distance (x1, y1, x2, y2) x y) eqn:E1; cbn [bind] in H.
    2: left; apply segment_distance_panic in E1; apply Hsq; tauto.
    2: discriminate.
    destruct (segment_distance (x2, y2, x3, y3) x y) eqn:E2; cbn [bind] in H.
    2: right; left; apply segment_distance_panic in E2; apply Hsq; tauto.
    2: discriminate.
    destruct (segment_distance (x3, y3, x1, y1) x y) eqn:E3; cbn [bind] in H.
    2: right; right; apply segment_distance_panic in E3; apply Hsq; tauto.
    all: discriminate.
  - intros H.
    assert (Hn : forall ax ay bx by', segment_distance (ax, ay, bx, by') x y <> OutOfFuel).
    { intros. unfold segment_distance. destruct (negb _); discriminate. }
    unfold triangle_distance_to, triangle_new. cbn [t_segments segments_distance].
    destruct (segment_distance (x1, y1, x2, y2) x y) eqn:E1; cbn [bind]; [|eauto|exfalso; eapply Hn; eassumption].
    destruct (segment_distance (x2, y2, x3, y3) x y) eqn:E2; cbn [bind]; [|eauto|exfalso; eapply Hn; eassumption].
    destruct (segment_distance (x3, y3, x1, y1) x y) eqn:E3; cbn [bind]; [|eauto|exfalso; eapply Hn; eassumption].
    exfalso.
    assert (Hp : forall ax ay bx by' d, segment_distance (ax, ay, bx, by') x y = Ok d -> (ax, ay) <> (bx, by')).
    { intros ax ay bx by' d E Heq. apply Hsq in Heq.
      assert (segment_distance (ax, ay, bx, by') x y = Panic AssertFail) by (apply segment_distance_panic; auto). congruence. }
    apply Hp in E1, E2, E3. tauto.
Qed.

(** ** Mesh2D: the nearest cell *)
Lemma nearest_loop_spec x y : forall (cells : list (Cell2D R)) k md index r,
  mesh2d_nearest_loop cells k x y md index = Ok r ->
  exists ds, Forall2 (fun c d => triangle_distance_to (c_triangle c) x y = Ok d) cells ds /\
    ((r = index /\ Forall (fun d => md <= d) ds) \/
     (exists i d, r = (k + i)%nat /\ nth_error ds i = Some d /\ d < md /\ Forall (fun d' => d <= d') ds)).
Proof.
  induction cells as [|c cells IH]; intros k md index r H; cbn [mesh2d_nearest_loop] in H.
  - injection H as <-. exists []. split; [constructor|]. left. split; [reflexivity|constructor].
  - apply bind_ok in H. destruct H as (d & Hd & H).
    destruct (nlt d md) eqn:E; bool_R.
    + apply IH in H. destruct H as (ds & Hds & [(-> & Ha)|(i & d' & -> & Hn & Hlt & Ha)]).
      * exists (d :: ds). split; [constructor; assumption|]. right. exists 0%nat, d. rewrite Nat.add_0_r.
        split; [reflexivity|]. split; [reflexivity|]. split; [exact E|]. constructor; [lra|exact Ha].
      * exists (d :: ds). split; [constructor; assumption|]. right. exists (S i), d'.
        split; [lia|]. split; [exact Hn|]. split; [lra|]. constructor; [lra|exact Ha].
    + apply IH in H. destruct H as (ds & Hds & [(-> & Ha)|(i & d' & -> & Hn & Hlt & Ha)]).
      * exists (d :: ds). split; [constructor; assumption|]. left. split; [reflexivity|]. constructor; [lra|exact Ha].
      * exists (d :: ds). split; [constructor; assumption|]. right. exists (S i), d'.
        split; [lia|]. split; [exact Hn|]. split; [exact Hlt|]. constructor; [lra|exact Ha].
Qed.
Lemma Forall2_nth {A B} (P : A -> B -> Prop) l l' i b : Forall2 P l l' -> nth_error l' i = Some b ->
  exists a, nth_error l i = Some a /\ P a b.
Proof.
  intros H. revert i. induction H as [|a' b' l l' Hab _ IH]; intros [|i] Hn; cbn in Hn; try discriminate.
  - injection Hn as <-. exists a'. auto.
  - apply IH in Hn. exact Hn.
Qed.
Lemma Forall2_nth_l {A B} (P : A -> B -> Prop) l l' i a : Forall2 P l l' -> nth_error l i = Some a ->
  exists b, nth_error l' i = Some b /\ P a b.
Proof.
  intros H. revert i. induction H as [|a' b' l l' Hab _ IH]; intros [|i] Hn; cbn in Hn; try discriminate.
  - injection Hn as <-. exists b'. auto.
  - apply IH in Hn. exact Hn.
Qed.
Lemma nearest_to_spec (g : Mesh2D R) x y c :
  mesh2d_nearest_to g x y = Ok c ->
  (exists c' d', In c' (m2_mesh g) /\ triangle_distance_to (c_triangle c') x y = Ok d' /\ d' < MAXF) ->
  In c (m2_mesh g) /\ exists d, triangle_distance_to (c_triangle c) x y = Ok d /\
    forall c', In c' (m2_mesh g) -> exists d', triangle_distance_to (c_triangle c') x y = Ok d' /\ d <= d'.
Proof.
  intros H (c0 & d0 & Hin & Hd0 & Hlt). unfold mesh2d_nearest_to in H.
  apply bind_ok in H. destruct H as (i & Hi & H). apply idx_ok in H.
  rewrite nmax_R in Hi. apply nearest_loop_spec in Hi. destruct Hi as (ds & Hds & Hcase).
  apply In_nth_error in Hin. destruct Hin as (j & Hj).
  destruct (Forall2_nth_l _ _ _ _ _ Hds Hj) as (dj & Hdj & Ej).
  assert (dj = d0) by congruence. subst dj.
  destruct Hcase as [(_ & Ha)|(i' & d & -> & Hn & Hm & Ha)].
  - exfalso. rewrite Forall_forall in Ha. apply nth_error_In in Hdj. specialize (Ha _ Hdj). lra.
  - cbn [Nat.add] in H. split; [eapply nth_error_In; exact H|].
    destruct (Forall2_nth _ _ _ _ _ Hds Hn) as (c' & Hc' & Ec'). assert (c' = c) by congruence. subst c'.
    exists d. split; [exact Ec'|]. intros c' Hin'. apply In_nth_error in Hin'. destruct Hin' as (k & Hk).
    destruct (Forall2_nth_l _ _ _ _ _ Hds Hk) as (dk & Hdk & Ek). exists dk. split; [exact Ek|].
    rewrite Forall_forall in Ha. apply Ha. eapply nth_error_In. exact Hdk.
Qed.

(** ** the sphere *)
Lemma sphere_r_R x y z : sphere_r x y z = sqrt (x * x + y * y + z * z).
Proof. unfold sphere_r. rewrite !npowi2_R. reflexivity. Qed.
Lemma sphere_nearest r x y z : 0 <= r -> 0 < sqrt (x * x + y * y + z * z) ->
  let s := sqrt (x * x + y * y + z * z) in
  is_nearest (fun q => vdot q q = r * r) (mkV x y z) (mkV (x / s * r) (y / s * r) (z / s * r)).
Proof.
  intros Hr Hs s. fold s in Hs.
  assert (Hss : s * s = x * x + y * y + z * z) by (apply sqrt_sqrt; pose proof (Rle_0_sqr x); pose proof (Rle_0_sqr y); pose proof (Rle_0_sqr z); unfold Rsqr in *; lra).
  split.
  - unfold vdot. cbn [vx vy vz].
    replace (x / s * r * (x / s * r) + y / s * r * (y / s * r) + z / s * r * (z / s * r))
      with (r * r * ((x * x + y * y + z * z) / (s * s))) by (field; lra).
    rewrite <- Hss. field. lra.
  - intros q Hq. unfold vdist. apply sqrt_le_1_alt.
    unfold vdot, vminus in *. cbn [vx vy vz] in *. destruct q as [a b c]. cbn [vx vy vz] in *.
    replace ((x / s * r - x) * (x / s * r - x) + (y / s * r - y) * (y / s * r - y) + (z / s * r - z) * (z / s * r - z))
      with ((r - s) * (r - s) * ((x * x + y * y + z * z) / (s * s))) by (field; lra).
    rewrite <- Hss. replace (s * s / (s * s)) with 1 by (field; lra).
    (* Cauchy-Schwarz *)
    assert (Hcs : a * x + b * y + c * z <= r * s).
    { assert (Hsq : (a * x + b * y + c * z) * (a * x + b * y + c * z) <= (r * s) * (r * s)).
      { replace ((r * s) * (r * s)) with ((r * r) * (s * s)) by ring. rewrite <- Hq, Hss.
        pose proof (Rle_0_sqr (a * y - b * x)). pose proof (Rle_0_sqr (a * z - c * x)). pose proof (Rle_0_sqr (b * z - c * y)).
        unfold Rsqr in *. lra. }
      assert (0 <= r * s) by (apply Rmult_le_pos; lra).
      destruct (Rle_dec (a * x + b * y + c * z) (r * s)) as [?|Hn]; [assumption|exfalso].
      assert (Hlt : r * s < a * x + b * y + c * z) by lra.
      pose proof (Rmult_le_0_lt_compat _ _ _ _ H H Hlt Hlt). lra. }
    lra.
Qed.
