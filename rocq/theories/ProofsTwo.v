(** * ProofsTwo.v - bookkeeping does not influence the physics. *)
From Coq Require Import ZArith List Bool Lia.
From Verif Require Import Num ModelTypes ModelConsts ModelParticle ModelGeometry ModelMaterial ModelInteractions ModelBca.
From Verif Require Import SpecTwo.
Import ListNotations.
Open Scope nat_scope.

Lemma agree_bind {A A' B B'} (R : A -> A' -> Prop) (S : B -> B' -> Prop) a a' f f' :
  agree R a a' -> (forall x y, R x y -> agree S (f x) (f' y)) -> agree S (bind a f) (bind a' f').
Proof. destruct a, a'; cbn; intros H K; try contradiction; auto. Qed.
Lemma agree_eq {A} (a b : Res A) : agree eq a b <-> a = b.
Proof.
  split.
  - destruct a, b; cbn; intro H; try contradiction; subst; reflexivity.
  - intros ->. destruct b; cbn; auto.
Qed.

(** runs of the random-stream monad *)
Definition magree {F A B} (R : A -> B -> Prop) (a : M F A) (b : M F B) : Prop :=
  forall rng n, agree_run R (a rng n) (b rng n).
Lemma magree_bind {F A A' B B'} (R : A -> A' -> Prop) (S : B -> B' -> Prop) (a : M F A) (a' : M F A') f f' :
  magree R a a' -> (forall x y, R x y -> magree S (f x) (f' y)) -> magree S (mbind a f) (mbind a' f').
Proof.
  intros H K rng n. specialize (H rng n). unfold mbind, agree_run, agree in *.
  destruct (a rng n) as [[x k]|j|], (a' rng n) as [[x' k']|j'|]; try contradiction; auto.
  cbn in H. destruct H as [H ->]. apply (K _ _ H).
Qed.
Lemma magree_ret {F A B} (R : A -> B -> Prop) x y : R x y -> magree (F:=F) R (mret x) (mret y).
Proof. intros H rng n. cbn. auto. Qed.
Lemma magree_lift {F A B} (R : A -> B -> Prop) a b : agree R a b -> magree (F:=F) R (mlift a) (mlift b).
Proof. intros H rng n. unfold mlift. destruct a, b; cbn in *; auto. Qed.
Lemma magree_refl {F A} (a : M F A) : magree eq a a.
Proof. intros rng n. unfold agree_run. destruct (a rng n); cbn; auto. Qed.
Lemma magree_eq {F A} (R : A -> A -> Prop) (a b : M F A) : (forall x, R x x) -> a = b -> magree R a b.
Proof. intros H -> rng n. unfold agree_run. destruct (b rng n) as [[]| |]; cbn; auto. Qed.

Section Two.
  Context {F : Type} {NF : Num F}.

  Ltac phys p q H :=
    destruct p, q; unfold same_physics in H; cbn in H;
    destruct H as (? & ? & ? & ? & ? & ? & ? & ? & ? & ? & ? & ? & ? & ? & ? & ? & ? & ? & ? & ?); subst.
  Ltac done_phys := unfold same_physics; cbn; repeat split; try reflexivity; auto; intros; congruence.

  Lemma sp_tracker (p q : Particle F) : same_physics p q ->
    same_physics (update_trajectory_tracker p) (update_trajectory_tracker q).
  Proof.
    intro H. unfold update_trajectory_tracker.
    destruct (p_track_trajectories p), (p_track_trajectories q); phys p q H; done_phys.
  Qed.
  Lemma sp_tracker_l (p q : Particle F) : same_physics p q -> same_physics (update_trajectory_tracker p) q.
  Proof. intro H. unfold update_trajectory_tracker. destruct (p_track_trajectories p); phys p q H; done_phys. Qed.
  Lemma sp_losses o o' a b (p q : Particle F) : same_physics p q ->
    same_physics (update_energy_loss_tracker o a b p) (update_energy_loss_tracker o' a b q).
  Proof.
    intro H. unfold update_energy_loss_tracker.
    destruct (p_incident p && _), (p_incident q && _); phys p q H; done_phys.
  Qed.
  Lemma sp_rotate a b (p q : Particle F) : same_physics p q -> same_physics (rotate a b p) (rotate a b q).
  Proof. intro H. phys p q H. done_phys. Qed.
  Lemma sp_refraction a b (p q : Particle F) : same_physics p q ->
    same_physics (surface_refraction a b p) (surface_refraction a b q).
  Proof. intro H. phys p q H. done_phys. Qed.

  Lemma sp_advance a b (p q : Particle F) : same_physics p q ->
    same_physics (fst (advance a b p)) (fst (advance a b q)) /\ snd (advance a b p) = snd (advance a b q).
  Proof.
    intro H. unfold advance.
    assert (K : same_physics (if nlt (p_Ec p) (p_E p) then update_trajectory_tracker p else p)
                             (if nlt (p_Ec q) (p_E q) then update_trajectory_tracker q else q)).
    { replace (nlt (p_Ec q) (p_E q)) with (nlt (p_Ec p) (p_E p)).
      - destruct (nlt _ _); [apply sp_tracker|]; exact H.
      - unfold same_physics in H. repeat match goal with K : _ /\ _ |- _ => destruct K end. congruence. }
    set (p' := if nlt (p_Ec p) (p_E p) then _ else _) in *.
    set (q' := if nlt (p_Ec q) (p_E q) then _ else _) in *.
    clearbody p' q'. clear H. phys p' q' K. split; [done_phys|reflexivity].
  Qed.

  Context (mat : Material F) (o o' : Options F).
  Context (HO : same_physics_options o o').

  Ltac destruct_options :=
    generalize HO; destruct o, o'; unfold same_physics_options; cbn;
    intros (? & ? & ? & ? & ? & ? & ? & ? & ?); subst.

  Lemma sp_E (p q : Particle F) : same_physics p q -> p_E p = p_E q.
  Proof. unfold same_physics. tauto. Qed.
  Lemma sp_pos (p q : Particle F) : same_physics p q -> p_pos p = p_pos q.
  Proof. unfold same_physics. tauto. Qed.
  Lemma sp_stopping (p q : Particle F) mode : same_physics p q ->
    electronic_stopping_cross_sections mat p mode = electronic_stopping_cross_sections mat q mode.
  Proof. intro H. phys p q H. reflexivity. Qed.

  Lemma sp_electronic (p q : Particle F) d x0 z i : same_physics p q ->
    agree (fun a b => same_physics (fst a) (fst b) /\ snd a = snd b)
      (subtract_electronic_stopping_energy mat o p d x0 z i)
      (subtract_electronic_stopping_energy mat o' q d x0 z i).
  Proof.
    intro H.
    assert (L : electronic_loss mat o p d x0 z i = electronic_loss mat o' q d x0 z i).
    { destruct_options. phys p q H. reflexivity. }
    unfold subtract_electronic_stopping_energy. rewrite <- L, (sp_E _ _ H), (sp_pos _ _ H).
    apply agree_bind with (R := eq); [apply agree_eq; reflexivity|]. intros [] [] _.
    destruct (mat_inside _ _ _ _); [|cbn; auto].
    apply agree_bind with (R := eq); [apply agree_eq; reflexivity|]. intros e ? <-.
    apply agree_bind with (R := eq); [apply agree_eq; reflexivity|]. intros [] [] _.
    cbn [agree fst snd]. split; [|reflexivity].
    destruct (nlt _ _); phys p q H; done_phys.
  Qed.

  Lemma sp_surface (p q : Particle F) : same_physics p q ->
    agree same_physics (surface_binding_energy mat p) (surface_binding_energy mat q).
  Proof.
    intro H. unfold surface_binding_energy.
    assert (HE : forall x y z, actual_surface_binding_energy mat p x y z = actual_surface_binding_energy mat q x y z)
      by (intros; phys p q H; reflexivity).
    assert (Hb : p_backreflected p = p_backreflected q) by (unfold same_physics in H; tauto).
    assert (Hd : p_dir p = p_dir q) by (unfold same_physics in H; tauto).
    assert (Ho : p_pos_old p = p_pos_old q) by (unfold same_physics in H; tauto).
    rewrite HE, (sp_pos _ _ H), (sp_E _ _ H), Hb, Hd, Ho.
    apply agree_bind with (R := eq); [apply agree_eq; reflexivity|]. intros Es ? <-.
    apply agree_bind with (R := eq); [apply agree_eq; reflexivity|]. intros b1 ? <-.
    apply agree_bind with (R := eq); [apply agree_eq; reflexivity|]. intros b2 ? <-.
    destruct (b1 && negb b2).
    - destruct (p_backreflected q).
      + cbn. phys p q H; done_phys.
      + apply agree_bind with (R := eq); [apply agree_eq; reflexivity|]. intros [[x2 y2] z2] ? <-.
        cbn [agree]. destruct (mat_surface_binding_model mat); try (apply sp_refraction; exact H).
        phys p q H; done_phys.
    - destruct (negb b1 && b2); [|exact H].
      apply agree_bind with (R := eq); [apply agree_eq; reflexivity|]. intros [[x2 y2] z2] ? <-.
      destruct (nlt _ (nZ 0)); [|exact H].
      destruct (nlt Es _); cbn [agree].
      + destruct (mat_surface_binding_model mat); try (apply sp_refraction; exact H).
        phys p q H; done_phys.
      + phys p q H; done_phys.
  Qed.

  Lemma sp_boundary (p q : Particle F) : same_physics p q ->
    agree same_physics (boundary_condition_planar mat p) (boundary_condition_planar mat q).
  Proof.
    intro H. unfold boundary_condition_planar.
    assert (Hc : p_Ec p = p_Ec q) by (unfold same_physics in H; tauto).
    rewrite (sp_pos _ _ H), (sp_E _ _ H), Hc.
    set (p1 := if negb _ then update_trajectory_tracker (set_p_left true p) else p).
    set (q1 := if negb _ then update_trajectory_tracker (set_p_left true q) else q).
    assert (H1 : same_physics p1 q1).
    { unfold p1, q1. destruct (negb _); [|exact H]. apply sp_tracker. phys p q H; done_phys. }
    clearbody p1 q1.
    apply agree_bind with (R := eq); [apply agree_eq; reflexivity|]. intros b ? <-.
    assert (Hl : p_left p1 = p_left q1) by (unfold same_physics in H1; tauto).
    rewrite Hl.
    set (p2 := if _ && b then update_trajectory_tracker (set_p_stopped true p1) else p1).
    set (q2 := if _ && b then update_trajectory_tracker (set_p_stopped true q1) else q1).
    assert (H2 : same_physics p2 q2).
    { unfold p2, q2. destruct (_ && b); [|exact H1]. apply sp_tracker. phys p1 q1 H1; done_phys. }
    clearbody p2 q2.
    assert (Hl2 : p_left p2 = p_left q2) by (unfold same_physics in H2; tauto).
    assert (Hs2 : p_stopped p2 = p_stopped q2) by (unfold same_physics in H2; tauto).
    rewrite Hl2, Hs2. destruct (negb _ && negb _); [|exact H2]. apply sp_surface. exact H2.
  Qed.

  Lemma sp_keep (p q p' q' : Particle F) : same_physics p q -> same_physics p' q' ->
    keep_recoil mat o p p' = keep_recoil mat o' q q'.
  Proof.
    intros H H'. destruct_options. phys p q H. phys p' q' H'. reflexivity.
  Qed.

  Lemma sp_geometry (p q : Particle F) : same_physics p q ->
    magree (fun a b => same_physics (fst a) (fst b) /\ snd a = snd b)
      (determine_mfp_phi_impact_parameter mat o p) (determine_mfp_phi_impact_parameter mat o' q).
  Proof.
    intro H. destruct_options.
    assert (HS := sp_stopping p q INTERPOLATED H).
    assert (Hf : same_physics (set_p_first_step false p) (set_p_first_step false q)) by (phys p q H; done_phys).
    assert (K : p_m p = p_m q /\ p_Z p = p_Z q /\ p_Ec p = p_Ec q /\ p_first_step p = p_first_step q)
      by (unfold same_physics in H; tauto).
    destruct K as (Km & KZ & KEc & Kf).
    unfold determine_mfp_phi_impact_parameter. cbn -[nZ nlit mrandoms seq idx screening_length].
    rewrite HS, (sp_pos _ _ H), (sp_E _ _ H), Km, KZ, KEc, Kf.
    Ltac step_eq := apply magree_bind with (R := eq); [apply magree_refl|]; intros ? ? <-.
    do 3 step_eq.
    match goal with |- context [if ?b then _ else _] => destruct b end.
    - do 6 step_eq.
      match goal with |- context [if nlt ?a ?b then mbind _ _ else _] => destruct (nlt a b) end.
      + do 3 step_eq. apply magree_ret. destruct (p_first_step q); cbn; auto.
      + do 3 step_eq. apply magree_ret. destruct (p_first_step q); cbn; auto.
    - do 3 step_eq. apply magree_ret. destruct (p_first_step q); cbn; auto.
  Qed.

  Lemma sp_partner (p q : Particle F) bcg : same_physics p q ->
    magree (fun a b => fst a = fst b /\ same_physics (snd a) (snd b))
      (choose_collision_partner mat o p bcg) (choose_collision_partner mat o' q bcg).
  Proof.
    intro H. unfold choose_collision_partner.
    assert (Hd : p_dir p = p_dir q) by (unfold same_physics in H; tauto).
    rewrite (sp_pos _ _ H), Hd. step_eq. apply magree_ret. split; [reflexivity|]. done_phys.
  Qed.

  Definition same_cs (a b : CollisionState F) : Prop :=
    same_physics (cs_particle_1 a) (cs_particle_1 b) /\ Forall2 same_physics (cs_particles a) (cs_particles b) /\
    cs_total_energy_lost_to_recoils a = cs_total_energy_lost_to_recoils b /\
    cs_total_asymptotic_deflection a = cs_total_asymptotic_deflection b /\
    cs_normalized_distance_of_closest_approach a = cs_normalized_distance_of_closest_approach b /\
    cs_strong_collision_Z a = cs_strong_collision_Z b /\ cs_strong_collision_index a = cs_strong_collision_index b.

  Lemma sp_binary build (p q p' q' : Particle F) bcg : same_physics p q -> same_physics p' q' ->
    calculate_binary_collision build p p' bcg o = calculate_binary_collision build q q' bcg o'.
  Proof.
    intros H H'. destruct_options. phys p q H. phys p' q' H'. reflexivity.
  Qed.

  Lemma sp_collision build k bcg a b : same_cs a b ->
    magree same_cs (collision_step build mat o k bcg a) (collision_step build mat o' k bcg b).
  Proof.
    intros (H & Hs & H1 & H2 & H3 & H4 & H5). unfold collision_step.
    apply magree_bind with (R := fun a b => fst a = fst b /\ same_physics (snd a) (snd b)); [apply sp_partner; exact H|].
    intros [i p2] [i' q2] [Hi Hp]. cbn in Hi, Hp. subst i'.
    rewrite (sp_pos _ _ H), (sp_pos _ _ Hp). step_eq.
    destruct (mat_inside _ _ _ _ && _).
    2: { apply magree_ret. unfold same_cs. tauto. }
    rewrite (sp_binary build _ _ _ _ bcg H Hp). step_eq. step_eq.
    match goal with |- context [keep_recoil mat o ?x ?y] => set (P1 := x); set (P2 := y) end.
    match goal with |- context [keep_recoil mat o' ?x ?y] => set (Q1 := x); set (Q2 := y) end.
    assert (HP1 : same_physics P1 Q1).
    { unfold P1, Q1. clear - H. destruct (_ && _); phys (cs_particle_1 a) (cs_particle_1 b) H; done_phys. }
    assert (HP2 : same_physics P2 Q2).
    { unfold P2, Q2. clear - Hp. phys p2 q2 Hp. done_phys. }
    rewrite (sp_keep _ _ _ _ HP1 HP2). step_eq. apply magree_ret.
    unfold same_cs; cbn [cs_particle_1 cs_particles cs_total_energy_lost_to_recoils cs_total_asymptotic_deflection
      cs_normalized_distance_of_closest_approach cs_strong_collision_Z cs_strong_collision_index].
    refine (conj HP1 (conj _ (conj _ (conj _ (conj _ (conj _ _)))))); try congruence.
    - match goal with |- context [if ?b then _ else _] => destruct b end; [constructor|]; assumption.
    - destruct (Nat.eqb k 0); congruence.
    - clear HP1 HP2. subst P1 P2 Q1 Q2. cbn. assert (p_Z p2 = p_Z q2) by (unfold same_physics in Hp; tauto). destruct (Nat.eqb k 0); congruence.
    - destruct (Nat.eqb k 0); congruence.
  Qed.

  Lemma sp_collisions build bcgs : forall k a b, same_cs a b ->
    magree same_cs (collision_loop build mat o k bcgs a) (collision_loop build mat o' k bcgs b).
  Proof.
    induction bcgs as [|bcg bcgs IH]; intros k a b H; cbn.
    - apply magree_ret. exact H.
    - apply magree_bind with (R := same_cs); [apply sp_collision; exact H|]. intros; apply IH; assumption.
  Qed.

  Definition same_pair (a b : Particle F * list (Particle F)) : Prop :=
    same_physics (fst a) (fst b) /\ Forall2 same_physics (snd a) (snd b).

  Lemma sp_step build (p q : Particle F) ps qs : same_physics p q -> Forall2 same_physics ps qs ->
    magree same_pair (bca_step build mat o p ps) (bca_step build mat o' q qs).
  Proof.
    intros H Hs. unfold bca_step.
    apply magree_bind with (R := fun a b => same_physics (fst a) (fst b) /\ snd a = snd b); [apply sp_geometry; exact H|].
    intros [p1 g] [q1 g'] [H1 Hg]. cbn in H1, Hg. subst g'.
    replace (o_weak_collision_order o') with (o_weak_collision_order o) by (unfold same_physics_options in HO; tauto).
    apply magree_bind with (R := same_cs).
    { apply sp_collisions. unfold same_cs. cbn. tauto. }
    intros a b (Ha & Hl & E1 & E2 & E3 & E4 & E5). step_eq.
    rewrite <- E1, <- E2, <- E3, <- E4, <- E5.
    match goal with |- context [advance ?m ?d (cs_particle_1 a)] =>
      destruct (sp_advance m d _ _ Ha) as [Hadv Hd];
      destruct (advance m d (cs_particle_1 a)) as [p2 d1]; destruct (advance m d (cs_particle_1 b)) as [q2 d2] end.
    cbn in Hadv, Hd. subst d2.
    apply magree_bind with (R := fun a b => same_physics (fst a) (fst b) /\ snd a = snd b).
    { apply magree_lift, sp_electronic. exact Hadv. }
    intros [p3 e] [q3 e'] [H3 He]. cbn in H3, He. subst e'.
    apply magree_bind with (R := same_physics).
    { apply magree_lift, sp_boundary, sp_losses. exact H3. }
    intros p4 q4 H4. apply magree_ret. split; assumption.
  Qed.

  Lemma sp_Forall2_len (ps qs : list (Particle F)) : Forall2 same_physics ps qs -> length ps = length qs.
  Proof. induction 1; cbn; congruence. Qed.

  Definition same_triple (a b : Particle F * list (Particle F) * nat) : Prop :=
    same_pair (fst a) (fst b) /\ snd a = snd b.
  Lemma sp_bca_loop build fuel : forall (p q : Particle F) ps qs i, same_physics p q -> Forall2 same_physics ps qs ->
    magree same_triple (bca_loop build mat o fuel p ps i) (bca_loop build mat o' fuel q qs i).
  Proof.
    induction fuel as [|fuel IH]; intros p q ps qs i H Hs; cbn.
    - intros rng n. exact I.
    - assert (Hl : p_left p = p_left q) by (unfold same_physics in H; tauto).
      assert (Hst : p_stopped p = p_stopped q) by (unfold same_physics in H; tauto).
      rewrite Hl, Hst. destruct (negb _ && negb _).
      + apply magree_bind with (R := same_pair); [apply sp_step; assumption|].
        intros [p1 ps1] [q1 qs1] [H1 H1s]. cbn in H1, H1s. rewrite (sp_Forall2_len _ _ H1s). apply IH; assumption.
      + apply magree_ret. split; [split; assumption|reflexivity].
  Qed.

  Lemma sp_stack build fuel : forall ps qs outp outq i, Forall2 same_physics ps qs -> Forall2 same_physics outp outq ->
    magree (Forall2 same_physics) (stack_loop build mat o fuel ps outp i) (stack_loop build mat o' fuel qs outq i).
  Proof.
    induction fuel as [|fuel IH]; intros ps qs outp outq i Hs Ho.
    - intros rng n. exact I.
    - cbn [stack_loop]. destruct i as [|i]; [apply magree_ret; exact Ho|].
      destruct Hs as [|p q ps qs H Hs]; [intros rng n; reflexivity|].
      apply magree_bind with (R := same_triple); [apply sp_bca_loop; assumption|].
      intros [[p1 ps1] i1] [[q1 qs1] i2] [[H1 H1s] Hi]. cbn in H1, H1s, Hi. subst i2.
      apply IH; [exact H1s|]. apply Forall2_app; [exact Ho|]. constructor; [exact H1|constructor].
  Qed.

  Lemma sp_single build fuel (p q : Particle F) : same_physics p q ->
    magree (Forall2 same_physics) (single_ion_bca build mat o fuel p) (single_ion_bca build mat o' fuel q).
  Proof. intro H. apply sp_stack; [constructor; [exact H|constructor]|constructor]. Qed.
End Two.
