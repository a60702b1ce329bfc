(** * ProofsSpecies.v - one species more, the same run. *)
From Coq Require Import ZArith List Bool Reals Lia Lra.
From Verif Require Import Num NumR ModelTypes ModelConsts ModelParticle ModelGeometry ModelMaterial ModelInteractions ModelBca.
From Verif Require Import SpecTwo SpecSpecies ProofsTwo ProofsBase ProofsGeometry.
Import ListNotations.
Open Scope nat_scope.

(** ** The interface: what the transport code asks of a target. *)
Section Interface.
  Context {F : Type} {NF : Num F}.
  Context (mat mat' : Material F) (corr : nat -> nat -> Prop) (good : F -> Prop).

  Definition same_species (s s' : Species F) : Prop :=
    corr (s_index s) (s_index s') /\ s_Z s' = s_Z s /\ s_m s' = s_m s /\ s_Ec s' = s_Ec s /\ s_Es s' = s_Es s /\
    s_Ed s' = s_Ed s /\ s_interaction_index s' = s_interaction_index s.

  Record same_target : Prop := {
    st_mfp : forall x y z, mat_mfp mat' x y z = mat_mfp mat x y z;
    st_total : forall x y z, total_number_density mat' x y z = total_number_density mat x y z;
    st_Z : forall x y z, average_Z mat' x y z = average_Z mat x y z;
    st_mass : forall x y z, average_mass mat' x y z = average_mass mat x y z;
    st_bulk : forall x y z, average_bulk_binding_energy mat' x y z = average_bulk_binding_energy mat x y z;
    st_Es : forall p x y z, actual_surface_binding_energy mat' p x y z = actual_surface_binding_energy mat p x y z;
    st_ck : forall x y z, g_get_ck (mat_geometry mat') x y z = g_get_ck (mat_geometry mat) x y z;
    st_inside : forall x y z, mat_inside mat' x y z = mat_inside mat x y z;
    st_boundary : forall x y z, mat_inside_simulation_boundary mat' x y z = mat_inside_simulation_boundary mat x y z;
    st_barrier : forall x y z, mat_inside_energy_barrier mat' x y z = mat_inside_energy_barrier mat x y z;
    st_closest : forall x y z, mat_closest_point mat' x y z = mat_closest_point mat x y z;
    st_model : mat_surface_binding_model mat' = mat_surface_binding_model mat;
    st_start : corr 0 0;
    st_index : forall i j, corr i j -> idx (mat_interaction_index mat') j = idx (mat_interaction_index mat) i;
    st_loss : forall p mode, agree (fun se se' =>
        (forall i j, corr i j -> idx se' j = idx se i) /\
        forall x y z, agree (fun n n' => weighted_sum se' n' = weighted_sum se n)
          (number_densities mat x y z) (number_densities mat' x y z))
      (electronic_stopping_cross_sections mat p mode) (electronic_stopping_cross_sections mat' p mode);
    st_choose : forall r x y z, good r -> agree same_species (choose_with mat r x y z) (choose_with mat' r x y z) }.
  Context (T : same_target).

  (** agreement on streams of good numbers *)
  Definition gagree {A B} (R : A -> B -> Prop) (a : M F A) (b : M F B) : Prop :=
    forall rng n, (forall k, good (rng k)) -> agree_run R (a rng n) (b rng n).
  Lemma gagree_of {A B} (R : A -> B -> Prop) (a : M F A) (b : M F B) : magree R a b -> gagree R a b.
  Proof. intros H rng n _. apply H. Qed.
  Lemma gagree_bind {A A' B B'} (R : A -> A' -> Prop) (S : B -> B' -> Prop) (a : M F A) (a' : M F A') f f' :
    gagree R a a' -> (forall x y, R x y -> gagree S (f x) (f' y)) -> gagree S (mbind a f) (mbind a' f').
  Proof.
    intros H K rng n G. specialize (H rng n G). unfold mbind, agree_run, agree in *.
    destruct (a rng n) as [[x k]|j|], (a' rng n) as [[x' k']|j'|]; try contradiction; auto.
    cbn in H. destruct H as [H ->]. apply (K _ _ H). exact G.
  Qed.
  Lemma gagree_ret {A B} (R : A -> B -> Prop) x y : R x y -> gagree R (mret x) (mret y).
  Proof. intros H. apply gagree_of, magree_ret, H. Qed.

  Ltac step := apply agree_bind with (R := eq); [apply agree_eq; reflexivity|]; intros ? ? <-.
  Ltac mstep := apply magree_bind with (R := eq); [apply magree_refl|]; intros ? ? <-.
  Ltac gstep := apply gagree_bind with (R := eq); [apply gagree_of, magree_refl|]; intros ? ? <-.

  Lemma st_electronic p d x0 z i j : corr i j -> forall o,
    electronic_loss mat' o p d x0 z j = electronic_loss mat o p d x0 z i.
  Proof.
    intros C o. unfold electronic_loss. rewrite (st_index T i j C). symmetry. apply agree_eq.
    step. step.
    apply agree_bind with (1 := st_loss T p (o_electronic_stopping_mode o)).
    intros se se' [Hi Hw].
    apply agree_bind with (1 := Hw _ _ _). intros n n' E. rewrite E, (Hi i j C).
    apply agree_eq. reflexivity.
  Qed.
  Lemma st_subtract o p d x0 z i j : corr i j ->
    subtract_electronic_stopping_energy mat' o p d x0 z j = subtract_electronic_stopping_energy mat o p d x0 z i.
  Proof.
    intros C. unfold subtract_electronic_stopping_energy. rewrite (st_inside T), (st_electronic p d x0 z i j C). reflexivity.
  Qed.
  Lemma st_surface p : surface_binding_energy mat' p = surface_binding_energy mat p.
  Proof.
    unfold surface_binding_energy. rewrite (st_Es T), !(st_barrier T), !(st_closest T), !(st_model T). reflexivity.
  Qed.
  Lemma st_planar p : boundary_condition_planar mat' p = boundary_condition_planar mat p.
  Proof.
    unfold boundary_condition_planar. rewrite (st_boundary T), (st_barrier T).
    symmetry. apply agree_eq. step. rewrite st_surface. apply agree_eq. reflexivity.
  Qed.
  Lemma st_keep o p q : keep_recoil mat' o p q = keep_recoil mat o p q.
  Proof. unfold keep_recoil. rewrite (st_total T), (st_closest T). reflexivity. Qed.

  Lemma st_determine o p : magree eq (determine_mfp_phi_impact_parameter mat o p) (determine_mfp_phi_impact_parameter mat' o p).
  Proof.
    unfold determine_mfp_phi_impact_parameter. cbv zeta.
    rewrite (st_mfp T), (st_Z T), (st_mass T), (st_total T).
    unfold electronic_stopping_correction_factor. rewrite (st_ck T).
    mstep. mstep. mstep.
    match goal with |- context [if o_high_energy_free_flight_paths o then _ else _] => destruct (o_high_energy_free_flight_paths o) end.
    2: apply magree_refl.
    mstep. mstep. mstep. mstep.
    eapply magree_bind; [apply magree_lift, (st_loss T)|]. intros se se' [_ Hw].
    eapply magree_bind; [apply magree_lift, Hw|]. intros n n' E. cbv beta in E. rewrite E.
    apply magree_refl.
  Qed.

  Lemma st_partner o p bcg : gagree (fun a b => corr (fst a) (fst b) /\ snd b = snd a)
    (choose_collision_partner mat o p bcg) (choose_collision_partner mat' o p bcg).
  Proof.
    unfold choose_collision_partner. cbv zeta.
    apply gagree_bind with (R := same_species).
    - unfold choose. intros rng n G. unfold mbind at 1 2, mrandom. cbv beta iota.
      apply (magree_lift same_species). apply (st_choose T). apply G.
    - intros s s' (C & E1 & E2 & E3 & E4 & E5 & E6). apply gagree_ret. cbn [fst snd].
      rewrite E1, E2, E3, E4, E5, E6. auto.
  Qed.

  Definition same_state (a b : CollisionState F) : Prop :=
    cs_particle_1 b = cs_particle_1 a /\ cs_particles b = cs_particles a /\
    cs_total_energy_lost_to_recoils b = cs_total_energy_lost_to_recoils a /\
    cs_total_asymptotic_deflection b = cs_total_asymptotic_deflection a /\
    cs_normalized_distance_of_closest_approach b = cs_normalized_distance_of_closest_approach a /\
    cs_strong_collision_Z b = cs_strong_collision_Z a /\
    corr (cs_strong_collision_index a) (cs_strong_collision_index b).

  Lemma st_collision build o k bcg a b : same_state a b ->
    gagree same_state (collision_step build mat o k bcg a) (collision_step build mat' o k bcg b).
  Proof.
    intros (E1 & E2 & E3 & E4 & E5 & E6 & C). unfold collision_step. cbv zeta. rewrite E1, E2, E3, E4, E5, E6.
    apply gagree_bind with (1 := st_partner o _ bcg).
    intros [i p2] [j p2'] [Ci Ep]. cbn [fst snd] in Ci, Ep. subst p2'.
    rewrite (st_barrier T), (st_inside T). gstep.
    destruct (mat_inside _ _ _ _ && _).
    2: { apply gagree_ret. unfold same_state. tauto. }
    rewrite (st_bulk T). gstep. gstep. rewrite st_keep. gstep.
    apply gagree_ret. unfold same_state.
    cbn [cs_particle_1 cs_particles cs_total_energy_lost_to_recoils cs_total_asymptotic_deflection
      cs_normalized_distance_of_closest_approach cs_strong_collision_Z cs_strong_collision_index].
    do 6 (split; [reflexivity|]). destruct (Nat.eqb k 0); assumption.
  Qed.
  Lemma st_collisions build o bcgs : forall k a b, same_state a b ->
    gagree same_state (collision_loop build mat o k bcgs a) (collision_loop build mat' o k bcgs b).
  Proof.
    induction bcgs as [|bcg bcgs IH]; intros k a b H; cbn [collision_loop].
    - apply gagree_ret. exact H.
    - apply gagree_bind with (R := same_state); [apply st_collision; exact H|]. intros; apply IH; assumption.
  Qed.
  Lemma st_step build o p ps : gagree eq (bca_step build mat o p ps) (bca_step build mat' o p ps).
  Proof.
    unfold bca_step.
    apply gagree_bind with (R := eq); [apply gagree_of, st_determine|]. intros [p1 bcgs] ? <-.
    apply gagree_bind with (R := same_state).
    { apply st_collisions. unfold same_state. cbn. repeat split; try reflexivity. apply (st_start T). }
    intros a b (E1 & E2 & E3 & E4 & E5 & E6 & C). gstep. rewrite E1, E2, E3, E4, E5, E6.
    destruct (advance _ _ _) as [p2 d].
    rewrite (st_subtract o p2 d _ _ _ _ C). gstep. destruct x0 as [p3 e]. rewrite st_planar. gstep.
    apply gagree_ret. reflexivity.
  Qed.
  Lemma st_loop build o fuel : forall p ps i,
    gagree eq (bca_loop build mat o fuel p ps i) (bca_loop build mat' o fuel p ps i).
  Proof.
    induction fuel as [|fuel IH]; intros p ps i; cbn [bca_loop].
    - intros rng n _. exact I.
    - destruct (negb _ && negb _); [|apply gagree_ret; reflexivity].
      apply gagree_bind with (R := eq); [apply st_step|]. intros [p1 ps1] ? <-. apply IH.
  Qed.
  Lemma st_stack build o fuel : forall ps out i,
    gagree eq (stack_loop build mat o fuel ps out i) (stack_loop build mat' o fuel ps out i).
  Proof.
    induction fuel as [|fuel IH]; intros ps out i; cbn [stack_loop].
    - intros rng n _. exact I.
    - destruct i; [apply gagree_ret; reflexivity|]. destruct ps as [|p ps]; [intros rng n _; reflexivity|].
      apply gagree_bind with (R := eq); [apply st_loop|]. intros [[p1 ps1] i1] ? <-. apply IH.
  Qed.
  Lemma st_single build o fuel p rng n : (forall k, good (rng k)) ->
    single_ion_bca build mat' o fuel p rng n = single_ion_bca build mat o fuel p rng n.
  Proof.
    intro G. symmetry. apply agree_eq. pose proof (st_stack build o fuel [p] [] 1 rng n G) as H.
    unfold single_ion_bca, agree_run, agree in *.
    destruct (stack_loop build mat o fuel [p] [] 1 rng n) as [[]| |], (stack_loop build mat' o fuel [p] [] 1 rng n) as [[]| |];
      try contradiction; auto. cbn in H. destruct H. congruence.
  Qed.
End Interface.

(** ** Lists *)
Open Scope R_scope.
Definition lsum (l : list R) : R := fold_right Rplus 0 l.
Lemma lsum_cons a l : lsum (a :: l) = a + lsum l.
Proof. reflexivity. Qed.
Lemma lsum_app l m : lsum (l ++ m) = lsum l + lsum m.
Proof. induction l as [|a l IH]; [cbn [app]; change (lsum []) with 0; lra|]. cbn [app]. rewrite !lsum_cons, IH. lra. Qed.
Lemma wsum_R (v c : list R) : weighted_sum v c = lsum (map (fun vc => fst vc * snd vc) (combine v c)).
Proof. unfold weighted_sum, zip. rewrite nsum_R. reflexivity. Qed.
Lemma combine_app {A B} (a1 a2 : list A) (b1 b2 : list B) : length a1 = length b1 ->
  combine (a1 ++ a2) (b1 ++ b2) = combine a1 b1 ++ combine a2 b2.
Proof. revert b1. induction a1 as [|x a1 IH]; destruct b1; cbn; try discriminate; auto. intros E. f_equal. apply IH. congruence. Qed.

Lemma divided_sum k l l' : divided k l l' -> nsum l' = nsum l.
Proof. intros (b & x & y & a & _ & _ & _ & -> & ->). rewrite !nsum_R. fold (lsum (b ++ x :: y :: a)) (lsum (b ++ (x + y) :: a)). rewrite !lsum_app, !lsum_cons. lra. Qed.
Lemma inserted_sum k l l' : inserted k 0 l l' -> nsum l' = nsum l.
Proof. intros (b & a & _ & -> & ->). rewrite !nsum_R. fold (lsum (b ++ 0 :: a)) (lsum (b ++ a)). rewrite !lsum_app, !lsum_cons. lra. Qed.
Lemma divided_wsum k v v' c c' : doubled k v v' -> divided k c c' -> weighted_sum v' c' = weighted_sum v c.
Proof.
  intros (b & x & a & Eb & -> & ->) (b2 & p & q & a2 & Eb2 & _ & _ & -> & ->).
  rewrite !wsum_R, !combine_app by congruence. cbn [combine]. rewrite !map_app. cbn [map fst snd].
  rewrite !lsum_app, !lsum_cons. lra.
Qed.
Lemma inserted_wsum k v v' c c' : extended k v v' -> inserted k 0 c c' -> weighted_sum v' c' = weighted_sum v c.
Proof.
  intros (x & b & a & Eb & -> & ->) (b2 & a2 & Eb2 & -> & ->).
  rewrite !wsum_R, !combine_app by congruence. cbn [combine]. rewrite !map_app. cbn [map fst snd].
  rewrite !lsum_app, !lsum_cons. lra.
Qed.
Lemma divided_zip {B} (f : R -> B) k n n' Z Z' : divided k n n' -> doubled k Z Z' ->
  doubled k (map (fun nz => f (snd nz)) (zip n Z)) (map (fun nz => f (snd nz)) (zip n' Z')).
Proof.
  intros (b2 & p & q & a2 & Eb2 & _ & _ & -> & ->) (b & x & a & Eb & -> & ->).
  unfold zip. rewrite !combine_app by congruence. cbn [combine]. rewrite !map_app. cbn [map snd].
  eexists _, _, _. split; [|split; reflexivity]. rewrite map_length, combine_length, Eb, Eb2. apply Nat.min_id.
Qed.
Lemma inserted_zip {B} (f : R -> B) k n n' Z Z' : inserted k 0 n n' -> extended k Z Z' ->
  extended k (map (fun nz => f (snd nz)) (zip n Z)) (map (fun nz => f (snd nz)) (zip n' Z')).
Proof.
  intros (b2 & a2 & Eb2 & -> & ->) (x & b & a & Eb & -> & ->).
  unfold zip. rewrite !combine_app by congruence. cbn [combine]. rewrite !map_app. cbn [map snd].
  eexists _, _, _. split; [|split; reflexivity]. rewrite map_length, combine_length, Eb, Eb2. apply Nat.min_id.
Qed.

(** ** Which position in the longer list an entry moves to *)
Open Scope nat_scope.
Definition div_corr (k i j : nat) : Prop := (i < k /\ j = i) \/ (i = k /\ (j = k \/ j = S k)) \/ (k < i /\ j = S i).
Definition ins_corr (k i j : nat) : Prop := (i < k /\ j = i) \/ (k <= i /\ j = S i).
Lemma div_idx {A} k (l l' : list A) i j : doubled k l l' -> div_corr k i j -> idx l' j = idx l i.
Proof.
  intros (b & x & a & E & -> & ->) C. unfold idx. f_equal.
  enough (nth_error (b ++ x :: x :: a) j = nth_error (b ++ x :: a) i) as -> by reflexivity.
  destruct C as [[L ->]|[[-> C]|[L ->]]].
  - rewrite !nth_error_app1 by lia. reflexivity.
  - destruct C as [->| ->]; rewrite !nth_error_app2 by lia.
    + replace (k - length b) with 0 by lia. reflexivity.
    + replace (k - length b) with 0 by lia. replace (S k - length b) with 1 by lia. reflexivity.
  - rewrite !nth_error_app2 by lia.
    replace (S i - length b) with (S (S (i - length b - 1))) by lia.
    replace (i - length b) with (S (i - length b - 1)) at 2 by lia. reflexivity.
Qed.
Lemma ins_idx {A} k (l l' : list A) i j : extended k l l' -> ins_corr k i j -> idx l' j = idx l i.
Proof.
  intros (x & b & a & E & -> & ->) C. unfold idx.
  enough (nth_error (b ++ x :: a) j = nth_error (b ++ a) i) as -> by reflexivity.
  destruct C as [[L ->]|[L ->]].
  - rewrite !nth_error_app1 by lia. reflexivity.
  - rewrite !nth_error_app2 by lia. replace (S i - length b) with (S (i - length b)) by lia. reflexivity.
Qed.

(** ** The scan of the cumulative concentrations *)
Open Scope R_scope.
Lemma choose_app (r : R) b : forall s i, s <= r ->
  (exists j, (i <= j < i + length b)%nat /\ forall rest, choose_index r i (cumulative_from s (b ++ rest)) = Some j) \/
  (exists s', s' <= r /\ forall rest, choose_index r i (cumulative_from s (b ++ rest)) =
                                      choose_index r (i + length b) (cumulative_from s' rest)).
Proof.
  induction b as [|c b IH]; intros s i L.
  - right. exists s. split; [exact L|]. intro rest. cbn [app length]. rewrite Nat.add_0_r. reflexivity.
  - cbn [app cumulative_from choose_index length]. destruct (nlt r (nadd s c)) eqn:E.
    + left. exists i. split; [lia|]. reflexivity.
    + assert (L' : nadd s c <= r) by (apply nlt_false in E; exact E).
      destruct (IH (nadd s c) (S i) L') as [(j & B & K)|(s' & B & K)].
      * left. exists j. split; [lia|exact K].
      * right. exists s'. split; [exact B|]. intro rest. rewrite K. f_equal. lia.
Qed.
Lemma choose_shift (r : R) l : forall s i,
  choose_index r (S i) (cumulative_from s l) = option_map S (choose_index r i (cumulative_from s l)).
Proof.
  induction l as [|c l IH]; intros s i; cbn [cumulative_from choose_index]; [reflexivity|].
  destruct (nlt r _); [reflexivity|apply IH].
Qed.
Lemma choose_ge (r : R) l : forall s i j, choose_index r i (cumulative_from s l) = Some j -> (i <= j)%nat.
Proof.
  induction l as [|c l IH]; intros s i j; cbn [cumulative_from choose_index]; [discriminate|].
  destruct (nlt r _); [intros H; replace j with i by congruence; lia|]. intros H. apply IH in H. lia.
Qed.

Definition same_choice (corr : nat -> nat -> Prop) (a b : option nat) : Prop :=
  match a, b with Some i, Some j => corr i j | None, None => True | _, _ => False end.
Lemma div_choice r k c c' : 0 <= r -> divided k c c' ->
  same_choice (div_corr k) (choose_index r 0 (cumulative_from 0 c)) (choose_index r 0 (cumulative_from 0 c')).
Proof.
  intros Hr (b & x & y & a & E & Hx & Hy & -> & ->).
  destruct (choose_app r b 0 0 Hr) as [(j & B & K)|(s & B & K)]; rewrite !K.
  - cbn. left. lia.
  - cbn [cumulative_from choose_index]. cbn [Nat.add]. rewrite E.
    change (nadd s (x + y)) with (s + (x + y)). change (nadd (nadd s x) y) with (s + x + y). change (nadd s x) with (s + x).
    replace (s + x + y)%R with (s + (x + y))%R by lra.
    destruct (nlt r (s + (x + y))) eqn:E1; destruct (nlt r (s + x)) eqn:E2.
    + cbn. right. left. lia.
    + cbn. right. left. lia.
    + exfalso.
      apply nlt_false in E1. apply nlt_true in E2. lra.
    + rewrite (choose_shift r a (s + (x + y)) (S k)).
      destruct (choose_index r (S k) _) as [j|] eqn:J; cbn; [|exact I].
      apply choose_ge in J. right. right. lia.
Qed.
Lemma ins_choice r k c c' : 0 <= r -> inserted k 0 c c' ->
  same_choice (ins_corr k) (choose_index r 0 (cumulative_from 0 c)) (choose_index r 0 (cumulative_from 0 c')).
Proof.
  intros Hr (b & a & E & -> & ->).
  destruct (choose_app r b 0 0 Hr) as [(j & B & K)|(s & B & K)]; rewrite !K.
  - cbn. left. lia.
  - cbn [cumulative_from choose_index]. cbn [Nat.add]. rewrite E.
    change (nadd s 0) with (s + 0). replace (s + 0)%R with s by lra.
    assert (nlt r s = false) as -> by (apply nlt_false; exact B).
    rewrite (choose_shift r a s k). destruct (choose_index r k _) as [j|] eqn:J; cbn; [|exact I].
    apply choose_ge in J. right. lia.
Qed.

(** ** From the relation on materials to the interface *)
Lemma bind_assoc {A B C} (a : Res A) (f : A -> Res B) (g : B -> Res C) : bind (bind a f) g = bind a (fun x => bind (f x) g).
Proof. destruct a; reflexivity. Qed.
Section Build.
  Context (k : nat) (L : list R -> list R -> Prop) (LN : list nat -> list nat -> Prop) (D : list R -> list R -> Prop).
  Context (corr : nat -> nat -> Prop).
  Context (Hsum : forall l l', D l l' -> nsum l' = nsum l).
  Context (Hw : forall v v' c c', L v v' -> D c c' -> weighted_sum v' c' = weighted_sum v c).
  Context (Hz : forall (f : R -> R) n n' Z Z', D n n' -> L Z Z' ->
    L (map (fun nz => f (snd nz)) (zip n Z)) (map (fun nz => f (snd nz)) (zip n' Z'))).
  Context (Hi : forall l l' i j, L l l' -> corr i j -> idx l' j = idx l i).
  Context (Hin : forall l l' i j, LN l l' -> corr i j -> idx l' j = idx l i).
  Context (Hc : forall r c c', 0 <= r -> D c c' ->
    same_choice corr (choose_index r 0 (cumulative_from 0 c)) (choose_index r 0 (cumulative_from 0 c'))).
  Context (H0 : corr 0%nat 0%nat).

  Lemma agree_ok_eq {A B} (R0 : A -> A -> Prop) (f : A -> B) (a a' : Res A) :
    agree R0 a a' -> (forall x y, R0 x y -> f y = f x) -> bind a' (fun c => Ok (f c)) = bind a (fun c => Ok (f c)).
  Proof.
    intros H K. symmetry. apply agree_eq. apply agree_bind with (1 := H). intros x y Rxy. cbn. symmetry. auto.
  Qed.

  Lemma build_target mat mat' : same_but_species L LN D mat mat' ->
    (averaging mat -> neqb (nsum (mat_Es mat')) (nZ 0) = neqb (nsum (mat_Es mat)) (nZ 0)) ->
    same_target mat mat' corr (fun r => 0 <= r).
  Proof.
    intros S HE. pose proof (sb_geometry _ _ _ _ _ S) as G.
    assert (W : forall v v' x y z, L v v' ->
      bind (g_get_concentrations (mat_geometry mat') x y z) (fun c => Ok (weighted_sum v' c)) =
      bind (g_get_concentrations (mat_geometry mat) x y z) (fun c => Ok (weighted_sum v c))).
    { intros v v' x y z H. symmetry. apply agree_eq. apply agree_bind with (1 := ss_concentrations _ _ _ G x y z).
      intros c c' C. cbn. symmetry. apply Hw; assumption. }
    assert (N : forall x y z, total_number_density mat' x y z = total_number_density mat x y z).
    { intros. unfold total_number_density. apply (agree_ok_eq D nsum); [apply (ss_densities _ _ _ G)|exact Hsum]. }
    constructor.
    - intros. unfold mat_mfp. rewrite N. reflexivity.
    - exact N.
    - intros. apply W, (sb_Z _ _ _ _ _ S).
    - intros. apply W, (sb_m _ _ _ _ _ S).
    - intros. apply W, (sb_Eb _ _ _ _ _ S).
    - intros p x y z. unfold actual_surface_binding_energy, sbe_target, sbe_average.
      rewrite (sb_model _ _ _ _ _ S). symmetry. apply agree_eq.
      apply agree_bind with (1 := ss_concentrations _ _ _ G x y z). intros c c' C.
      rewrite (Hw _ _ _ _ (sb_Es _ _ _ _ _ S) C).
      unfold averaging in HE.
      destruct (mat_surface_binding_model mat) as [ | | |c0|c0]; try destruct c0; cbn [agree]; try reflexivity;
        rewrite (HE I); reflexivity.
    - apply (ss_ck _ _ _ G).
    - apply (ss_inside _ _ _ G).
    - apply (ss_boundary _ _ _ G).
    - apply (ss_barrier _ _ _ G).
    - apply (ss_closest _ _ _ G).
    - apply (sb_model _ _ _ _ _ S).
    - exact H0.
    - intros i j C. apply Hin; [apply (sb_index _ _ _ _ _ S)|exact C].
    - intros p mode. unfold electronic_stopping_cross_sections, electronic_stopping_correction_factor, number_densities.
      cbv zeta. rewrite (ss_ck _ _ _ G). apply agree_bind with (R := eq); [apply agree_eq; reflexivity|]. intros ck ? <-.
      apply agree_bind with (1 := ss_densities _ _ _ G _ _ _). intros n n' C. cbn [agree].
      pose proof (Hz (stopping_power mode ck (p_E p) (p_m p) (p_Z p)) n n' (mat_Z mat) (mat_Z mat') C (sb_Z _ _ _ _ _ S)) as HL.
      split.
      + intros i j Cij. apply Hi; assumption.
      + intros x y z. pose proof (ss_densities _ _ _ G x y z) as Hd.
        destruct (g_get_densities (mat_geometry mat) x y z), (g_get_densities (mat_geometry mat') x y z); cbn [agree] in *; auto.
    - intros r x y z Hr. unfold choose_with, get_cumulative_concentrations. rewrite !bind_assoc.
      apply agree_bind with (1 := ss_concentrations _ _ _ G x y z). intros c c' C. cbn [bind].
      replace (nZ 0) with 0 by (rewrite nZ_R; reflexivity).
      pose proof (Hc r c c' Hr C) as K. unfold same_choice in K.
      destruct (choose_index r 0 (cumulative_from 0 c)) as [i|], (choose_index r 0 (cumulative_from 0 c')) as [j|]; try contradiction.
      2: reflexivity.
      rewrite (Hi _ _ i j (sb_Z _ _ _ _ _ S) K), (Hi _ _ i j (sb_m _ _ _ _ _ S) K), (Hi _ _ i j (sb_Ec _ _ _ _ _ S) K),
        (Hi _ _ i j (sb_Es _ _ _ _ _ S) K), (Hi _ _ i j (sb_Ed _ _ _ _ _ S) K), (Hin _ _ i j (sb_index _ _ _ _ _ S) K).
      do 6 (apply agree_bind with (R := eq); [apply agree_eq; reflexivity|]; intros ? ? <-).
      cbn. repeat split. exact K.
  Qed.
End Build.

Lemma lsum_zero l : Forall (fun x => 0 <= x) l -> (lsum l = 0 <-> Forall (fun x => x = 0) l).
Proof.
  assert (P : forall l, Forall (fun x => 0 <= x) l -> 0 <= lsum l).
  { induction 1; [change (lsum []) with 0; lra|]. rewrite lsum_cons. lra. }
  induction 1 as [|x l Hx Hl IH].
  - split; [constructor|reflexivity].
  - rewrite lsum_cons. pose proof (P l Hl). split.
    + intro E. constructor; [lra|]. apply IH. lra.
    + intro A. inversion A; subst. apply IH in H3. lra.
Qed.
Lemma same_zero (a b : R) : (a = 0 <-> b = 0) -> neqb b (nZ 0) = neqb a (nZ 0).
Proof.
  intro H. rewrite nZ_R. destruct (neqb a 0) eqn:E.
  - apply neqb_true in E. apply neqb_true. apply H, E.
  - apply neqb_false in E. apply neqb_false. intro K. apply E, H, K.
Qed.
Lemma divided_target k mat mat' : species_divided k mat mat' ->
  (averaging mat -> Forall (fun e => 0 <= e) (mat_Es mat)) ->
  same_target mat mat' (div_corr k) (fun r => 0 <= r).
Proof.
  intros S HE. apply build_target with (L := doubled k) (LN := doubled k) (D := divided k).
  - apply divided_sum.
  - apply divided_wsum.
  - intro f. apply divided_zip.
  - intros l l' i j. apply div_idx.
  - intros l l' i j. apply div_idx.
  - intros r c c'. apply div_choice.
  - unfold div_corr. lia.
  - exact S.
  - intro A. specialize (HE A). apply same_zero. rewrite !nsum_R.
    destruct (sb_Es _ _ _ _ _ S) as (b & x & a & _ & E & E'). rewrite E in *. rewrite E'.
    fold (lsum (b ++ x :: a)) (lsum (b ++ x :: x :: a)).
    apply Forall_app in HE. destruct HE as [Hb Ha]. inversion Ha; subst.
    rewrite !lsum_zero.
    + rewrite !Forall_app. split; intros [P Q]; split; auto; inversion Q; subst; auto.
    + apply Forall_app. split; [exact Hb|]. constructor; [assumption|]. constructor; assumption.
    + apply Forall_app. split; [exact Hb|]. constructor; assumption.
Qed.
Lemma absent_target k mat mat' : (1 <= k)%nat -> absent_species_added k mat mat' ->
  (averaging mat -> (total_binding mat = 0 <-> total_binding mat' = 0)) ->
  same_target mat mat' (ins_corr k) (fun r => 0 <= r).
Proof.
  intros Hk S HE. apply build_target with (L := extended k) (LN := extended k) (D := inserted k 0).
  - apply inserted_sum.
  - apply inserted_wsum.
  - intro f. apply inserted_zip.
  - intros l l' i j. apply ins_idx.
  - intros l l' i j. apply ins_idx.
  - intros r c c'. apply ins_choice.
  - unfold ins_corr. lia.
  - exact S.
  - intro A. apply same_zero. rewrite !nsum_R. apply HE, A.
Qed.

(** ** A half-space *)
Lemma divided_map c k l l' : 0 < c -> divided k l l' -> divided k (map (fun d => d / c) l) (map (fun d => d / c) l').
Proof.
  intros Hc (b & x & y & a & E & Hx & Hy & -> & ->). rewrite !map_app. cbn [map].
  exists (map (fun d => d / c) b), (x / c), (y / c), (map (fun d => d / c) a).
  split; [rewrite map_length; exact E|]. assert (0 < / c) by (apply Rinv_0_lt_compat; exact Hc).
  split; [apply Rmult_le_pos; lra|]. split; [apply Rmult_le_pos; lra|]. split; [|reflexivity].
  replace ((x + y) / c) with (x / c + y / c) by (unfold Rdiv; ring). reflexivity.
Qed.
Lemma inserted_map c k l l' : inserted k 0 l l' -> inserted k 0 (map (fun d => d / c) l) (map (fun d => d / c) l').
Proof.
  intros (b & a & E & -> & ->). rewrite !map_app. cbn [map].
  exists (map (fun d => d / c) b), (map (fun d => d / c) a).
  split; [rewrite map_length; exact E|]. split; [reflexivity|]. replace (0 / c) with 0 by (unfold Rdiv; ring). reflexivity.
Qed.
Lemma half_space_shape (D : list R -> list R -> Prop) lu u l l' ck g g' :
  (forall c l l', 0 < c -> D l l' -> D (map (fun d => d / c) l) (map (fun d => d / c) l')) ->
  (forall l l', D l l' -> nsum l' = nsum l) ->
  length_unit_value lu = Ok u -> 0 < u -> 0 < nsum l -> D l l' ->
  mesh0d_new {| m0i_length_unit := lu; m0i_densities := l; m0i_ck := ck |} = Ok g ->
  mesh0d_new {| m0i_length_unit := lu; m0i_densities := l'; m0i_ck := ck |} = Ok g' ->
  same_shape D (mesh0d_geometry g) (mesh0d_geometry g').
Proof.
  intros Hm Hs Hu Hu0 Hl HD. unfold mesh0d_new. cbn [m0i_length_unit m0i_densities m0i_ck]. rewrite Hu. cbn [bind].
  assert (I : forall x y : Mesh0D R, Ok x = Ok y -> y = x) by congruence.
  intros Hg Hg'. apply I in Hg. apply I in Hg'. subst g g'.
  assert (Hp : 0 < npowi u 3) by (rewrite npowi3_R; repeat apply Rmult_lt_0_compat; exact Hu0).
  set (d := convert_densities u l). set (d' := convert_densities u l').
  assert (Hd : D d d').
  { unfold d, d', convert_densities. apply (Hm (npowi u 3)); [exact Hp|exact HD]. }
  assert (Hd0 : 0 < nsum d).
  { unfold d. rewrite nsum_R. change (fold_right Rplus 0 ?x) with (lsum x).
    assert (E : forall c m, lsum (map (fun e => e / c) m) = lsum m / c).
    { intros c m. induction m as [|e m IH]; [cbn [map]; change (lsum []) with 0; unfold Rdiv; ring|].
      cbn [map]. rewrite !lsum_cons, IH. unfold Rdiv. ring. }
    unfold convert_densities. change (0 < lsum (map (fun e => e / npowi u 3) l)).
    rewrite E. apply Rdiv_lt_0_compat; [rewrite nsum_R in Hl; exact Hl|exact Hp]. }
  assert (Ht : barrier_thickness_of d' = barrier_thickness_of d) by (unfold barrier_thickness_of; rewrite (Hs _ _ Hd); reflexivity).
  assert (Hc : D (concentrations_of d) (concentrations_of d')).
  { unfold concentrations_of. cbv zeta. rewrite (Hs _ _ Hd). apply Hm; [exact Hd0|exact Hd]. }
  clearbody d d'.
  constructor; cbn [mesh0d_geometry g_get_densities g_get_concentrations g_get_ck g_inside g_inside_simulation_boundary
    g_inside_energy_barrier g_closest_point m0_densities m0_concentrations m0_ck m0_energy_barrier_thickness agree];
    intros; try rewrite Ht; auto.
Qed.
