(** * ProofsFollow.v - options about recoils do not touch the particle being followed (any number type) *)
From Coq Require Import ZArith List Bool Lia.
From Verif Require Import Num ModelTypes ModelConsts ModelParticle ModelInteractions ModelGeometry
  ModelMaterial ModelBca Spec SpecTwo SpecPath ProofsBase ProofsBca ProofsStep.
Import ListNotations.
Open Scope nat_scope.

Section Follow.
  Context {F : Type} {NF : Num F}.
  Definition stripped (cs : CollisionState F) : CollisionState F :=
    {| cs_particle_1 := cs_particle_1 cs; cs_particles := [];
       cs_total_energy_lost_to_recoils := cs_total_energy_lost_to_recoils cs;
       cs_total_asymptotic_deflection := cs_total_asymptotic_deflection cs;
       cs_normalized_distance_of_closest_approach := cs_normalized_distance_of_closest_approach cs;
       cs_strong_collision_Z := cs_strong_collision_Z cs;
       cs_strong_collision_index := cs_strong_collision_index cs |}.

  Lemma step_off build (mat : Material F) o o' k bcg cs rng n cs' n' :
    same_but_recoils o o' -> o_track_recoils o' = false ->
    collision_step build mat o k bcg cs rng n = Ok (cs', n') ->
    collision_step build mat o' k bcg (stripped cs) rng n = Ok (stripped cs', n').
  Proof.
    intros (_ & _ & _ & _ & Hip & Hsi & Hrf & _) Hoff. unfold collision_step, choose_collision_partner.
    intros H. apply mbind_ok in H. destruct H as ([i q] & m & H1 & H).
    apply mbind_ok in H1. destruct H1 as (s & m0 & Hs & H1). unfold mret in H1. injection H1 as <- <- <-.
    unfold mbind at 1. unfold mbind at 1. cbn [stripped cs_particle_1]. rewrite Hs. cbv beta iota.
    unfold mret at 1. cbv beta iota.
    apply mbind_ok in H. destruct H as (b & m1 & Hb & H). unfold mbind at 1. rewrite Hb. cbv beta iota.
    match type of H with context [calculate_binary_collision build _ ?x bcg o] => set (q := x) in * end.
    match goal with |- context [calculate_binary_collision build _ ?x bcg o'] => set (q' := x) end.
    change (p_pos q') with (p_pos q).
    destruct (_ && b) eqn:Hin.
    2: { unfold mret in *. injection H as <- <-. reflexivity. }
    assert (Hc : calculate_binary_collision build (cs_particle_1 cs) q' bcg o'
               = calculate_binary_collision build (cs_particle_1 cs) q bcg o).
    { unfold calculate_binary_collision, distance_of_closest_approach.
      rewrite <- Hip, <- Hsi, <- Hrf. reflexivity. }
    rewrite Hc.
    apply mbind_ok in H. destruct H as (r & m2 & Hr & H). unfold mbind at 1. rewrite Hr. cbv beta iota.
    apply mbind_ok in H. destruct H as (bulk & m3 & Hbulk & H). unfold mbind at 1. rewrite Hbulk. cbv beta iota.
    apply mbind_ok in H. destruct H as (keep & m4 & Hk & H). apply mlift_ok in Hk. destruct Hk as (_ & <-).
    unfold mbind, keep_recoil. rewrite Hoff. cbn [andb mlift].
    unfold mret in *. injection H as <- <-. reflexivity.
  Qed.

  Lemma loop_off build (mat : Material F) o o' bcgs :
    same_but_recoils o o' -> o_track_recoils o' = false ->
    forall k cs rng n cs' n',
    collision_loop build mat o k bcgs cs rng n = Ok (cs', n') ->
    collision_loop build mat o' k bcgs (stripped cs) rng n = Ok (stripped cs', n').
  Proof.
    intros Hs Hoff. induction bcgs as [|bcg bcgs IH]; intros k cs rng n cs' n'; cbn [collision_loop].
    - unfold mret. intros H. injection H as <- <-. reflexivity.
    - intros H. apply mbind_ok in H. destruct H as (c1 & n1 & H1 & H2).
      unfold mbind. rewrite (step_off _ _ _ _ _ _ _ _ _ _ _ Hs Hoff H1). cbv beta iota. now apply IH.
  Qed.

  Lemma bca_step_off build (mat : Material F) o o' p parts rng n p' parts' n' :
    same_but_recoils o o' -> o_track_recoils o' = false ->
    bca_step build mat o p parts rng n = Ok ((p', parts'), n') ->
    bca_step build mat o' p [] rng n = Ok ((p', []), n').
  Proof.
    intros Hs Hoff H. pose proof Hs as (Hw & Hh & Hm & Hf & Hip & Hsi & Hrf & Ht).
    unfold bca_step in *. apply mbind_ok in H. destruct H as ([p1 bcgs] & n1 & H1 & H).
    apply mbind_ok in H. destruct H as (cs & n2 & H2 & H).
    assert (E : determine_mfp_phi_impact_parameter mat o' p rng n = Ok ((p1, bcgs), n1)).
    { rewrite <- H1. unfold determine_mfp_phi_impact_parameter. rewrite Hw, Hh, Hf. reflexivity. }
    unfold mbind at 1. rewrite E. cbv beta iota. unfold mbind at 1. rewrite <- Hw.
    apply (loop_off _ _ _ _ _ Hs Hoff) in H2. unfold stripped at 1 in H2.
    cbn [cs_particle_1 cs_total_energy_lost_to_recoils cs_total_asymptotic_deflection
         cs_normalized_distance_of_closest_approach cs_strong_collision_Z cs_strong_collision_index] in H2.
    rewrite H2. cbv beta iota.
    apply mbind_ok in H. destruct H as (bcg0 & n3 & H3 & H). unfold mbind at 1. rewrite H3. cbv beta iota.
    cbn [stripped cs_total_asymptotic_deflection cs_particle_1 cs_normalized_distance_of_closest_approach
         cs_strong_collision_Z cs_strong_collision_index cs_total_energy_lost_to_recoils cs_particles].
    destruct (advance _ _ _) as [p2 d].
    apply mbind_ok in H. destruct H as ([p3 loss] & n4 & H4 & H). unfold mbind at 1.
    replace (subtract_electronic_stopping_energy mat o' p2 d) with (subtract_electronic_stopping_energy mat o p2 d).
    2: { unfold subtract_electronic_stopping_energy, electronic_loss. rewrite Hip, Hm. reflexivity. }
    rewrite H4. cbv beta iota.
    apply mbind_ok in H. destruct H as (p4 & n5 & H5 & H). unfold mbind at 1.
    replace (update_energy_loss_tracker o' (cs_total_energy_lost_to_recoils cs) loss p3)
      with (update_energy_loss_tracker o (cs_total_energy_lost_to_recoils cs) loss p3).
    2: { unfold update_energy_loss_tracker. rewrite Ht. reflexivity. }
    rewrite H5. cbv beta iota. unfold mret in *. injection H as <- _ <-. reflexivity.
  Qed.

  Lemma bca_loop_off build (mat : Material F) o o' fuel :
    same_but_recoils o o' -> o_track_recoils o' = false ->
    forall p parts i j rng n p' parts' i' n',
    bca_loop build mat o fuel p parts i rng n = Ok ((p', parts', i'), n') ->
    bca_loop build mat o' fuel p [] j rng n
      = Ok ((p', [], if negb (p_stopped p) && negb (p_left p) then 0 else j), n').
  Proof.
    intros Hs Hoff. induction fuel as [|fuel IH]; intros p parts i j rng n p' parts' i' n'; [discriminate|].
    cbn [bca_loop]. destruct (negb (p_stopped p) && negb (p_left p)).
    - intros H. apply mbind_ok in H. destruct H as ([p1 l1] & n1 & H1 & H2).
      unfold mbind. rewrite (bca_step_off _ _ _ _ _ _ _ _ _ _ _ Hs Hoff H1). cbv beta iota.
      cbn [length]. rewrite (IH _ _ _ 0 _ _ _ _ _ _ H2). destruct (_ && _); reflexivity.
    - unfold mret. intros H. injection H as <- _ _ <-. reflexivity.
  Qed.

  Lemma stack_loop_prefix build (mat : Material F) o fuel :
    forall parts out i rng n res n',
    stack_loop build mat o fuel parts out i rng n = Ok (res, n') -> exists more, res = out ++ more.
  Proof.
    induction fuel as [|fuel IH]; intros parts out i rng n res n'; [discriminate|].
    cbn [stack_loop]. destruct i as [|i].
    - unfold mret. intros H. injection H as <- _. exists []. now rewrite app_nil_r.
    - destruct parts as [|p parts]; [discriminate|]. intros H. apply mbind_ok in H.
      destruct H as ([[p1 l1] i1] & n1 & _ & H). apply IH in H. destruct H as (more & ->).
      exists (p1 :: more). now rewrite <- app_assoc.
  Qed.

  Lemma run_off build (mat : Material F) o o' fuel ion rng n out n' :
    same_but_recoils o o' -> o_track_recoils o' = false ->
    single_ion_bca build mat o fuel ion rng n = Ok (out, n') ->
    exists p rest m, out = p :: rest /\ single_ion_bca build mat o' fuel ion rng n = Ok ([p], m).
  Proof.
    intros Hs Hoff H. pose proof (single_ok_active _ _ _ _ _ _ _ _ _ H) as Ha.
    unfold single_ion_bca in *. destruct fuel as [|fuel]; [discriminate|]. cbn [stack_loop] in *.
    apply mbind_ok in H. destruct H as ([[p1 l1] i1] & n1 & H1 & H).
    destruct fuel as [|fuel]; [discriminate|].
    destruct (stack_loop_prefix _ _ _ _ _ _ _ _ _ _ _ H) as (more & ->).
    exists p1, more, n1. split; [reflexivity|].
    unfold mbind. rewrite (bca_loop_off _ _ _ _ _ Hs Hoff _ _ _ 1 _ _ _ _ _ _ H1). cbv beta iota.
    rewrite (active_test _ Ha). reflexivity.
  Qed.
End Follow.
