(** * ProofsStep.v - full inversion of one collision and invariants of a run, for every number type *)
From Coq Require Import ZArith List Bool Lia.
From Verif Require Import Num ModelTypes ModelConsts ModelParticle ModelInteractions ModelGeometry
  ModelMaterial ModelBca Spec ProofsBase ProofsBca.
Import ListNotations.
Open Scope nat_scope.

Section Step.
  Context {F : Type} {NF : Num F}.

  (** the projectile after the collision *)
  Definition projectile_after (k : nat) (bcg : BinaryCollisionGeometry F) (r : BinaryCollisionResult F)
      (p1 : Particle F) : Particle F :=
    let p := rotate (bcr_psi r) (bcg_phi_azimuthal bcg) (set_p_E (p_E p1 +! (-! bcr_recoil_energy r)) p1) in
    if (bcr_psi r >! nZ 0) && Nat.eqb k 0
    then set_p_number_collision_events (S (p_number_collision_events p)) p else p.
  (** the recoil after the collision *)
  Definition recoil_after (bcg : BinaryCollisionGeometry F) (r : BinaryCollisionResult F) (bulk : F)
      (p2 : Particle F) : Particle F :=
    let p := set_p_E (bcr_recoil_energy r -! bulk) p2 in
    let p := set_p_energy_origin (p_E p) p in
    let p := rotate (-! bcr_psi_recoil r) (bcg_phi_azimuthal bcg) p in
    set_p_dir_old (mkV (vx (p_dir p)) (vy (p_dir p)) (vz (p_dir p))) p.

  Lemma collision_step_inv build mat options k bcg cs rng n cs' n' :
    collision_step build mat options k bcg cs rng n = Ok (cs', n') ->
    exists i p2 barrier,
      choose_collision_partner mat options (cs_particle_1 cs) bcg rng n = Ok ((i, p2), n') /\
      in_barrier mat (p_pos (cs_particle_1 cs)) = Ok barrier /\
      (in_material mat (p_pos p2) && barrier = false /\ cs' = cs \/
       in_material mat (p_pos p2) && barrier = true /\
       exists r bulk keep,
         calculate_binary_collision build (cs_particle_1 cs) p2 bcg options = Ok (Some r) /\
         average_bulk_binding_energy mat (vx (p_pos p2)) (vy (p_pos p2)) (vz (p_pos p2)) = Ok bulk /\
         let p1' := projectile_after k bcg r (cs_particle_1 cs) in
         let p2' := recoil_after bcg r bulk p2 in
         keep_recoil mat options p1' p2' = Ok keep /\
         cs' = {| cs_particle_1 := p1';
              cs_particles := if keep then p2' :: cs_particles cs else cs_particles cs;
              cs_total_energy_lost_to_recoils := cs_total_energy_lost_to_recoils cs +! bcr_recoil_energy r;
              cs_total_asymptotic_deflection := cs_total_asymptotic_deflection cs +! bcr_asymptotic_deflection r;
              cs_normalized_distance_of_closest_approach :=
                if Nat.eqb k 0 then bcr_normalized_distance_of_closest_approach r
                else cs_normalized_distance_of_closest_approach cs;
              cs_strong_collision_Z := if Nat.eqb k 0 then p_Z p2' else cs_strong_collision_Z cs;
              cs_strong_collision_index := if Nat.eqb k 0 then i else cs_strong_collision_index cs |}).
  Proof.
    unfold collision_step. intros H.
    apply mbind_ok in H. destruct H as ([i p2] & n1 & Hc & H).
    apply mbind_ok in H. destruct H as (b & n2 & Hb & H).
    apply mlift_ok in Hb. destruct Hb as (Hb & ->).
    destruct (mat_inside mat (vx (p_pos p2)) (vy (p_pos p2)) (vz (p_pos p2)) && b) eqn:Hin.
    - apply mbind_ok in H. destruct H as (r & n3 & Hr & H).
      apply mlift_ok in Hr. destruct Hr as (Hr & ->).
      apply mbind_ok in H. destruct H as (bulk & n4 & Hbulk & H).
      apply mlift_ok in Hbulk. destruct Hbulk as (Hbulk & ->).
      apply mbind_ok in H. destruct H as (keep & n5 & Hk & H).
      apply mlift_ok in Hk. destruct Hk as (Hk & ->).
      apply mret_ok in H. destruct H as (H & ->).
      exists i, p2, b. split; [exact Hc|]. split; [exact Hb|]. right. split; [exact Hin|].
      unfold unwrap_ok in Hr. apply bind_ok in Hr. destruct Hr as ([r'|] & Hr & E); [|discriminate E].
      injection E; intros ->. exists r, bulk, keep.
      split; [exact Hr|]. split; [exact Hbulk|]. split; [exact Hk|]. exact H.
    - apply mret_ok in H. destruct H as (H & ->).
      exists i, p2, b. split; [exact Hc|]. split; [exact Hb|]. left. split; [exact Hin|exact H].
  Qed.

  (** the collision partner before the collision: where it is, and how it is set up *)
  Lemma partner_inv mat options p1 bcg rng n i p2 n' :
    choose_collision_partner mat options p1 bcg rng n = Ok ((i, p2), n') ->
    p_pos p2 = recoil_position (p_pos p1) (p_dir p1) bcg /\ p_E p2 = nZ 0 /\
    p_dir p2 = v_normalize (p_dir p1) /\ p_asymptotic_deflection p2 = nZ 0 /\ p_first_step p2 = false /\
    p_backreflected p2 = false /\ atom_of_species mat i p2 /\ n' = S n /\
    exists s, choose_with mat (rng n) (vx (p_pos p2)) (vy (p_pos p2)) (vz (p_pos p2)) = Ok s /\ s_index s = i.
  Proof.
    intros H. pose proof (partner_ok _ _ _ _ _ _ _ _ _ H) as (Ha & _).
    unfold choose_collision_partner, choose in H. inv_ok.
    cbn. repeat split; try (destruct (recoil_position _ _ _); reflexivity); try apply Ha; auto.
    eexists. split; [eassumption|reflexivity].
  Qed.

  (** ** invariants of a run *)
  Lemma collision_loop_invariant (P : CollisionState F -> Prop) build mat options bcgs :
    (forall k bcg cs rng n cs' n', P cs -> collision_step build mat options k bcg cs rng n = Ok (cs', n') -> P cs') ->
    forall k cs rng n cs' n', P cs ->
      collision_loop build mat options k bcgs cs rng n = Ok (cs', n') -> P cs'.
  Proof.
    intros HP. induction bcgs as [|bcg bcgs IH]; simpl; intros k cs rng n cs' n' H0 H.
    - inv_ok. exact H0.
    - apply mbind_ok in H. destruct H as (cs1 & n1 & H1 & H). apply HP in H1; [|exact H0].
      eapply IH; eassumption.
  Qed.
  Lemma bca_loop_invariant (P : Particle F -> Prop) build mat options fuel :
    (forall p particles rng n p' particles' n', active p -> P p -> Forall P particles ->
       bca_step build mat options p particles rng n = Ok ((p', particles'), n') -> P p' /\ Forall P particles') ->
    forall p particles i rng n p' particles' i' n', P p -> Forall P particles ->
      bca_loop build mat options fuel p particles i rng n = Ok ((p', particles', i'), n') ->
      P p' /\ Forall P particles'.
  Proof.
    intros HP. induction fuel as [|fuel IH]; intros p particles i rng n p' particles' i' n' Hp Hps H; [discriminate H|].
    cbn [bca_loop] in H.
    destruct (active_dec p) as [Ha|Ha].
    - rewrite (active_test p Ha) in H.
      apply mbind_ok in H. destruct H as ([p1 parts1] & n1 & Hstep & H).
      apply HP in Hstep; try assumption. destruct Hstep as [Hp1 Hps1]. eapply IH; eassumption.
    - rewrite (not_active_test p Ha) in H. inv_ok. auto.
  Qed.
  Lemma stack_loop_invariant (P : Particle F -> Prop) build mat options fuel :
    (forall p particles rng n p' particles' n', active p -> P p -> Forall P particles ->
       bca_step build mat options p particles rng n = Ok ((p', particles'), n') -> P p' /\ Forall P particles') ->
    forall particles out i rng n res n', Forall P particles -> Forall P out ->
      stack_loop build mat options fuel particles out i rng n = Ok (res, n') -> Forall P res.
  Proof.
    intros HP. induction fuel as [|fuel IH]; intros particles out i rng n res n' Hps Ho H; [discriminate H|].
    cbn [stack_loop] in H. destruct i as [|i]; [inv_ok; exact Ho|].
    destruct particles as [|p1 ps]; [discriminate H|]. inversion_clear Hps.
    apply mbind_ok in H. destruct H as ([[p' ps'] i'] & n1 & Hl & H).
    apply (bca_loop_invariant P) in Hl; try assumption. destruct Hl as [Hp' Hps'].
    eapply IH; [exact Hps'| |exact H]. apply Forall_app. auto.
  Qed.
  Lemma run_invariant (P : Particle F -> Prop) build mat options fuel ion rng n out n' :
    (forall p particles rng n p' particles' n', active p -> P p -> Forall P particles ->
       bca_step build mat options p particles rng n = Ok ((p', particles'), n') -> P p' /\ Forall P particles') ->
    P ion -> single_ion_bca build mat options fuel ion rng n = Ok (out, n') -> Forall P out.
  Proof. intros HP Hi H. eapply stack_loop_invariant; [exact HP| | |exact H]; auto. Qed.
End Step.
