(** * ProofsBca.v - invariants of the trajectory loop, for every number type *)
From Coq Require Import ZArith List Bool Lia.
From Verif Require Import Num ModelTypes ModelConsts ModelParticle ModelInteractions ModelGeometry
  ModelMaterial ModelBca Spec ProofsBase.
Import ListNotations.
Open Scope nat_scope.

Section Bca.
  Context {F : Type} {NF : Num F}.

  (** ** identity *)
  Lemma same_identity_refl (p : Particle F) : same_identity p p.
  Proof. unfold same_identity; tauto. Qed.
  Lemma same_identity_trans (p q r : Particle F) :
    same_identity p q -> same_identity q r -> same_identity p r.
  Proof.
    unfold same_identity. intros (?&?&?&?&?&?&?&?&?&?&?&?&?) (?&?&?&?&?&?&?&?&?&?&?&?&?).
    repeat split; congruence.
  Qed.
  Lemma same_identity_sym (p q : Particle F) : same_identity p q -> same_identity q p.
  Proof. unfold same_identity. intros (?&?&?&?&?&?&?&?&?&?&?&?&?). repeat split; congruence. Qed.

  (** ** choosing the collision geometry only touches first_step *)
  Lemma determine_frame mat options p rng n p' bcgs n' :
    determine_mfp_phi_impact_parameter mat options p rng n = Ok ((p', bcgs), n') ->
    p' = if p_first_step p then set_p_first_step false p else p.
  Proof.
    unfold determine_mfp_phi_impact_parameter. intros H.
    do 4 inv_ok_step. 
    inv_ok_step; inv_ok_step.
    destruct (o_high_energy_free_flight_paths options).
    - inv_ok.
      match goal with H : (if ?b then _ else _) _ _ = Ok _ |- _ => destruct b end; inv_ok; reflexivity.
    - inv_ok. reflexivity.
  Qed.

  (** ** one collision *)

  (** The particle fields that collisions and free flight choice leave alone
      besides the identity. *)
  Definition collision_frame (p q : Particle F) : Prop :=
    same_identity p q /\ p_pos q = p_pos p /\ p_pos_old q = p_pos_old p /\ p_dir_old q = p_dir_old p /\
    p_asymptotic_deflection q = p_asymptotic_deflection p /\ p_stopped q = p_stopped p /\
    p_left q = p_left p /\ p_backreflected q = p_backreflected p /\
    p_trajectory q = p_trajectory p /\ p_energies q = p_energies p /\
    p_number_collision_events p <= p_number_collision_events q.
  Lemma collision_frame_refl p : collision_frame p p.
  Proof. unfold collision_frame. repeat split; auto using same_identity_refl. Qed.
  Lemma collision_frame_trans p q r :
    collision_frame p q -> collision_frame q r -> collision_frame p r.
  Proof.
    unfold collision_frame. intros (?&?&?&?&?&?&?&?&?&?&?) (?&?&?&?&?&?&?&?&?&?&?).
    split; [eapply same_identity_trans; eassumption|]. repeat split; try congruence. lia.
  Qed.

  Lemma choose_ok mat x y z rng n s n' :
    choose mat x y z rng n = Ok (s, n') ->
    nth_error (mat_Z mat) (s_index s) = Some (s_Z s) /\ nth_error (mat_m mat) (s_index s) = Some (s_m s) /\
    nth_error (mat_Ec mat) (s_index s) = Some (s_Ec s) /\ nth_error (mat_Es mat) (s_index s) = Some (s_Es s) /\
    nth_error (mat_Ed mat) (s_index s) = Some (s_Ed s) /\
    nth_error (mat_interaction_index mat) (s_index s) = Some (s_interaction_index s).
  Proof.
    unfold choose, choose_with. intros H. inv_ok.
    match goal with H : match ?o with _ => _ end = Ok _ |- _ => destruct o; [|discriminate H] end.
    inv_ok. simpl. repeat split; assumption.
  Qed.

  (** A collision partner before the collision. *)
  Lemma partner_ok mat options p1 bcg rng n i p2 n' :
    choose_collision_partner mat options p1 bcg rng n = Ok ((i, p2), n') ->
    atom_of_species mat i p2 /\ p_incident p2 = false /\ p_stopped p2 = false /\ p_left p2 = false /\
    p_pos_origin p2 = p_pos p2 /\ p_trajectory p2 = [] /\
    p_energies p2 = [mkEL (nZ 0) (nZ 0) (vx (p_pos p2)) (vy (p_pos p2)) (vz (p_pos p2))] /\
    p_weight p2 = p_weight p1 /\ p_tag p2 = p_tag p1 /\ p_tracked_vector p2 = p_tracked_vector p1 /\
    p_track_trajectories p2 = o_track_recoil_trajectories options /\
    p_number_collision_events p2 = 0%nat.
  Proof.
    unfold choose_collision_partner. intros H. inv_ok.
    match goal with H : choose _ _ _ _ _ _ = Ok _ |- _ => apply choose_ok in H end.
    unfold atom_of_species. simpl. intuition.
  Qed.

  Lemma keep_recoil_true mat options p1 p2 :
    keep_recoil mat options p1 p2 = Ok true ->
    o_track_recoils options = true /\ nlt (p_Ec p2) (p_E p2) = true.
  Proof.
    unfold keep_recoil. destruct (o_track_recoils options); simpl.
    - destruct (o_suppress_deep_recoils options); intros H; inv_ok.
      + match goal with H : _ && _ = true |- _ => apply andb_prop in H; tauto end.
      + auto.
    - intros H. discriminate H.
  Qed.

  Lemma collision_step_ok build mat options k bcg cs rng n cs' n' :
    collision_step build mat options k bcg cs rng n = Ok (cs', n') ->
    collision_frame (cs_particle_1 cs) (cs_particle_1 cs') /\
    exists l, cs_particles cs' = l ++ cs_particles cs /\
      Forall (fun r => recoil_of mat options (cs_particle_1 cs) r /\ newborn r) l.
  Proof.
    unfold collision_step. intros H. inv_ok_step. inv_ok_step. inv_ok_step. inv_ok_step.
    match goal with H : choose_collision_partner _ _ _ _ _ _ = Ok _ |- _ => apply partner_ok in H end.
    match goal with H : (if ?b then _ else _) _ _ = Ok _ |- _ => destruct b eqn:Hin end.
    - inv_ok.
      split.
      + cbn [cs_particle_1].
        unfold collision_frame, same_identity, rotate.
        destruct ((nZ 0 <! bcr_psi _) && Nat.eqb k 0); simpl; repeat split; auto.
      + cbn [cs_particles]. 
        match goal with H : keep_recoil _ _ _ _ = Ok ?b |- _ => destruct b; [|exists []; split; [reflexivity|constructor]] end.
        match goal with |- context [?p :: cs_particles cs] => exists [p] end.
        split; [reflexivity|]. constructor; [|constructor].
        match goal with H : keep_recoil _ _ _ _ = Ok true |- _ => apply keep_recoil_true in H; destruct H as [Htr HE] end.
        apply andb_prop in Hin. destruct Hin as [Hin _].
        unfold recoil_of, newborn, atom_of_species, in_material, rotate, mat_inside in *.
        simpl in *. intuition (try congruence).
        * eexists; repeat split; eassumption.
    - inv_ok. split; [apply collision_frame_refl|]. exists []. split; [reflexivity|constructor].
  Qed.

  Lemma recoil_of_same mat options p q r :
    p_weight p = p_weight q -> p_tag p = p_tag q -> p_tracked_vector p = p_tracked_vector q ->
    recoil_of mat options p r -> recoil_of mat options q r.
  Proof. unfold recoil_of. intros H1 H2 H3. rewrite H1, H2, H3. auto. Qed.
  Lemma recoil_of_identity mat options p q r :
    same_identity p q -> recoil_of mat options q r -> recoil_of mat options p r.
  Proof.
    unfold same_identity. intros (?&?&?&?&?&?&?&?&?&?&?&?&?). apply recoil_of_same; congruence.
  Qed.

  Lemma collision_loop_ok build mat options bcgs : forall k cs rng n cs' n',
    collision_loop build mat options k bcgs cs rng n = Ok (cs', n') ->
    collision_frame (cs_particle_1 cs) (cs_particle_1 cs') /\
    exists l, cs_particles cs' = l ++ cs_particles cs /\
      Forall (fun r => recoil_of mat options (cs_particle_1 cs) r /\ newborn r) l.
  Proof.
    induction bcgs as [|bcg bcgs IH]; simpl; intros k cs rng n cs' n' H.
    - inv_ok. split; [apply collision_frame_refl|]. exists []. split; [reflexivity|constructor].
    - inv_ok.
      match goal with H : collision_step _ _ _ _ _ _ _ _ = Ok _ |- _ => apply collision_step_ok in H; destruct H as (Hf1 & l1 & Hl1 & HF1) end.
      apply IH in H. destruct H as (Hf2 & l2 & Hl2 & HF2).
      split; [eapply collision_frame_trans; eassumption|].
      exists (l2 ++ l1). split; [rewrite Hl2, Hl1, app_assoc; reflexivity|].
      apply Forall_app. split; [|exact HF1].
      eapply Forall_impl; [|exact HF2]. intros r [Hr Hn]. split; [|exact Hn].
      eapply recoil_of_identity; [apply Hf1|exact Hr].
  Qed.

  (** ** electronic stopping only touches the energy *)
  Lemma subtract_frame mat options p dist x0 scZ sci p' loss :
    subtract_electronic_stopping_energy mat options p dist x0 scZ sci = Ok (p', loss) ->
    exists E, p' = set_p_E E p.
  Proof.
    unfold subtract_electronic_stopping_energy. intros H. inv_ok_step.
    match goal with H : (if ?b then _ else _) = Ok _ |- _ => destruct b end; inv_ok.
    - destruct (_ <! nZ 0); eexists; reflexivity.
    - exists (p_E p'). destruct p'; reflexivity.
  Qed.

  (** ** the surface barrier touches energy, direction and the reflection flag *)
  Lemma surface_frame mat p p' :
    surface_binding_energy mat p = Ok p' ->
    p' = set_p_backreflected (p_backreflected p') (set_p_E (p_E p') (set_p_dir (p_dir p') p)).
  Proof.
    unfold surface_binding_energy. intros H.
    do 3 inv_ok_step.
    match goal with H : (if ?b then _ else _) = Ok _ |- _ => destruct b end.
    - destruct (p_backreflected p) eqn:Eb; inv_ok.
      + destruct p; reflexivity.
      + destruct (mat_surface_binding_model mat); destruct p; reflexivity.
    - match goal with H : (if ?b then _ else _) = Ok _ |- _ => destruct b end.
      + do 3 inv_ok_step.
        match goal with H : (if ?b then _ else _) = Ok _ |- _ => destruct b end.
        * match goal with H : (if ?b then _ else _) = Ok _ |- _ => destruct b end; inv_ok.
          -- destruct (mat_surface_binding_model mat); destruct p; reflexivity.
          -- destruct p; reflexivity.
        * inv_ok. destruct p'; reflexivity.
      + inv_ok. destruct p'; reflexivity.
  Qed.
  Lemma surface_frame_ex mat p p' :
    surface_binding_energy mat p = Ok p' ->
    exists E d b, p' = set_p_backreflected b (set_p_E E (set_p_dir d p)).
  Proof. intros H. apply surface_frame in H. eauto. Qed.

  (** ** what one iteration of the loop does to the particle's bookkeeping *)
  Record step_relation (mat : Material F) (options : Options F) (p p' : Particle F) : Prop := {
    sr_identity : same_identity p p';
    sr_outcome : active p' \/ came_to_rest mat p' \/ escaped mat p';
    sr_trajectory : exists t, p_trajectory p' = p_trajectory p ++ t /\ (p_track_trajectories p = false -> t = []);
    sr_last : active p' \/ ends_at_final_point p';
    sr_energies : exists e, p_energies p' = p_energies p ++ e /\
       (p_incident p && o_track_energy_losses options = false -> e = []);
    sr_last_loss : losses_end_at_final_point options p';
    sr_count : p_number_collision_events p <= p_number_collision_events p' }.

  Lemma boundary_ok mat p p' :
    active p -> boundary_condition_planar mat p = Ok p' ->
    same_identity p p' /\ p_pos p' = p_pos p /\
    (active p' \/ came_to_rest mat p' \/ escaped mat p') /\
    (exists t, p_trajectory p' = p_trajectory p ++ t /\ (p_track_trajectories p = false -> t = [])) /\
    (active p' \/ ends_at_final_point p') /\
    p_energies p' = p_energies p /\
    p_number_collision_events p' = p_number_collision_events p.
  Proof.
    intros [Hs Hl] H. unfold boundary_condition_planar in H.
    inv_ok_step.
    destruct (mat_inside_simulation_boundary mat (vx (p_pos p)) (vy (p_pos p)) (vz (p_pos p))) eqn:Hb; cbn [negb] in H.
    - rewrite Hl in H. cbn [negb] in H. rewrite andb_true_r in H.
      destruct (p_E p <! p_Ec p) eqn:HE; [destruct x|]; cbn [andb] in H.
      + (* comes to rest *)
        unfold update_trajectory_tracker in H.
        destruct (p_track_trajectories p) eqn:Ht; simpl in H; rewrite ?Ht in H; simpl in H; inv_ok;
          (split; [unfold same_identity; simpl; repeat split; auto|]; split; [reflexivity|];
           split; [right; left; unfold came_to_rest, in_boundary, in_barrier, mat_inside_simulation_boundary in *; simpl; rewrite ?Hl; repeat split; auto|];
           split; [simpl|split; [right; unfold ends_at_final_point, point_of; simpl; rewrite ?Ht|split; reflexivity]]).
        * eexists; split; [reflexivity|intros Hf; congruence].
        * intros _. eexists. reflexivity.
        * exists []. rewrite app_nil_r. auto.
        * intros Hf; congruence.
      + rewrite Hs, Hl in H. cbn [negb andb] in H.
        apply surface_frame_ex in H. destruct H as (E & d & b & ->).
        split; [unfold same_identity; simpl; repeat split; auto|].
        split; [reflexivity|]. split; [left; split; assumption|].
        split; [exists []; simpl; rewrite app_nil_r; auto|]. split; [left; split; assumption|]. split; reflexivity.
      + rewrite Hs, Hl in H. cbn [negb andb] in H.
        apply surface_frame_ex in H. destruct H as (E & d & b & ->).
        split; [unfold same_identity; simpl; repeat split; auto|].
        split; [reflexivity|]. split; [left; split; assumption|].
        split; [exists []; simpl; rewrite app_nil_r; auto|]. split; [left; split; assumption|]. split; reflexivity.
    - (* leaves *)
      unfold update_trajectory_tracker in H.
      destruct (p_track_trajectories p) eqn:Ht; simpl in H; rewrite ?Ht in H; simpl in H;
        rewrite andb_false_r in H; simpl in H; rewrite andb_false_r in H; inv_ok;
          (split; [unfold same_identity; simpl; repeat split; auto|]; split; [reflexivity|];
           split; [right; right; unfold escaped, in_boundary, mat_inside_simulation_boundary in *; simpl; repeat split; auto|];
           split; [simpl|split; [right; unfold ends_at_final_point, point_of; simpl; rewrite ?Ht|split; reflexivity]]).
      + eexists; split; [reflexivity|intros Hf; congruence].
      + intros _. eexists. reflexivity.
      + exists []. rewrite app_nil_r. auto.
      + intros Hf; congruence.
  Qed.

  Lemma bca_step_inv build mat options p particles rng n p' particles' n' :
    bca_step build mat options p particles rng n = Ok ((p', particles'), n') ->
    exists p0 bcgs n1 cs bcg0 q dist q' loss,
      determine_mfp_phi_impact_parameter mat options p rng n = Ok ((p0, bcgs), n1) /\
      collision_loop build mat options 0 (firstn (S (o_weak_collision_order options)) bcgs)
        (mkCS p0 particles (nZ 0) (nZ 0) (nZ 0) (nZ 0) 0%nat) rng n1 = Ok (cs, n') /\
      nth_error bcgs 0 = Some bcg0 /\
      advance (bcg_mfp bcg0) (cs_total_asymptotic_deflection cs) (cs_particle_1 cs) = (q, dist) /\
      subtract_electronic_stopping_energy mat options q dist
               (cs_normalized_distance_of_closest_approach cs) (cs_strong_collision_Z cs)
               (cs_strong_collision_index cs) = Ok (q', loss) /\
      boundary_condition_planar mat
        (update_energy_loss_tracker options (cs_total_energy_lost_to_recoils cs) loss q') = Ok p' /\
      particles' = cs_particles cs.
  Proof.
    unfold bca_step. intros H.
    apply mbind_ok in H. destruct H as ([p0 bcgs] & n1 & Hd & H).
    apply mbind_ok in H. destruct H as (cs & n2 & Hc & H).
    apply mbind_ok in H. destruct H as (bcg0 & n3 & Hi & H).
    apply mlift_ok in Hi. destruct Hi as (Hi & ->). apply idx_ok in Hi.
    destruct (advance _ _ _) as [q dist] eqn:Hadv.
    apply mbind_ok in H. destruct H as ([q' loss] & n4 & Hsub & H).
    apply mlift_ok in Hsub. destruct Hsub as (Hsub & ->).
    apply mbind_ok in H. destruct H as (p1 & n5 & Hb & H).
    apply mlift_ok in Hb. destruct Hb as (Hb & ->).
    apply mret_ok in H. destruct H as (H & ->). injection H; intros; subst p1 particles'.
    exists p0, bcgs, n1, cs, bcg0, q, dist, q', loss. repeat split; assumption.
  Qed.

  Lemma bca_step_ok build mat options p particles rng n p' particles' n' :
    active p ->
    bca_step build mat options p particles rng n = Ok ((p', particles'), n') ->
    step_relation mat options p p' /\
    exists l, particles' = l ++ particles /\
      Forall (fun r => recoil_of mat options p r /\ newborn r) l.
  Proof.
    intros Ha H. apply bca_step_inv in H.
    destruct H as (p0 & bcgs & n1 & cs & bcg0 & qa & dist & qs & loss & Hd & Hloop & _ & Hadv & Hsub & Hb & ->).
    apply determine_frame in Hd.
    apply collision_loop_ok in Hloop. destruct Hloop as (Hf & l & Hl & HF).
    cbn [cs_particle_1 cs_particles] in Hf, Hl, HF.
    unfold advance in Hadv. injection Hadv; clear Hadv; intros _ Hqa.
    apply subtract_frame in Hsub. destruct Hsub as (E & ->). subst qa.
    assert (Hf0 : collision_frame p (cs_particle_1 cs)).
    { eapply collision_frame_trans; [|exact Hf]. rewrite Hd.
      destruct (p_first_step p); [|apply collision_frame_refl].
      unfold collision_frame, same_identity; simpl; repeat split; auto. }
    clear Hf.
    apply boundary_ok in Hb.
    2:{ destruct Hf0 as (_&_&_&_&_&Hs&Hlf&_). destruct Ha as [Ha1 Ha2].
        unfold active, update_energy_loss_tracker, update_trajectory_tracker.
        repeat match goal with |- context [if ?b then _ else _] => destruct b end; simpl; split; congruence. }
    set (q := update_energy_loss_tracker _ _ _ _) in Hb.
    destruct Hb as (Hid & Hpos & Hout & (t & Ht & Ht0) & Hlast & Hen & Hcnt).
    assert (Hq : same_identity p q /\
                 (exists t, p_trajectory q = p_trajectory p ++ t /\ (p_track_trajectories p = false -> t = [])) /\
                 (exists e, p_energies q = p_energies p ++ e /\ (p_incident p && o_track_energy_losses options = false -> e = [])) /\
                 losses_end_at_final_point options q /\
                 p_number_collision_events p <= p_number_collision_events q).
    { destruct Hf0 as (Hid0&Hp&Hpo&Hdo&Hasy&Hs&Hlf&Hbr&Htj&Hes&Hc).
      assert (Htt : p_track_trajectories (cs_particle_1 cs) = p_track_trajectories p) by (symmetry; apply Hid0).
      assert (Hii : p_incident (cs_particle_1 cs) = p_incident p) by (symmetry; apply Hid0).
      unfold q, update_energy_loss_tracker, update_trajectory_tracker.
      split; [eapply same_identity_trans; [exact Hid0|];
              repeat match goal with |- context [if ?b then _ else _] => destruct b end;
              unfold same_identity; simpl; repeat split; reflexivity|].
      split.
      { destruct (_ <! p_E _); [destruct (p_track_trajectories (cs_particle_1 cs)) eqn:E1|];
          simpl; match goal with |- context [if ?b then _ else _] => destruct b end; simpl; rewrite Htj;
          try (eexists; split; [reflexivity|congruence]); exists []; rewrite app_nil_r; auto. }
      split.
      { match goal with |- context [p_incident ?x && _] => replace (p_incident x) with (p_incident p) end.
        2:{ repeat match goal with |- context [if ?b then _ else _] => destruct b end; simpl; congruence. }
        destruct (p_incident p && o_track_energy_losses options).
        - simpl. repeat match goal with |- context [if ?b then _ else _] => destruct b end; simpl; rewrite Hes;
          (eexists; split; [reflexivity|discriminate]).
        - exists []. rewrite app_nil_r. split; [|auto].
          repeat match goal with |- context [if ?b then _ else _] => destruct b end; simpl; congruence. }
      split.
      { unfold losses_end_at_final_point. intros Hi Ho.
        rewrite Ho in *. rewrite andb_true_r in *.
        match goal with |- context [if ?b then _ else _] => destruct b eqn:Eb end.
        - eexists _, _, _. simpl. reflexivity.
        - rewrite Eb in Hi. discriminate. }
      repeat match goal with |- context [if ?b then _ else _] => destruct b end; simpl; lia. }
    clearbody q. destruct Hq as (Hq1 & (t' & Hq2 & Hq2') & (e & Hq3 & Hq3') & Hq4 & Hq5).
    split.
    - constructor.
      + eapply same_identity_trans; eassumption.
      + exact Hout.
      + exists (t' ++ t). rewrite Ht, Hq2, app_assoc. split; [reflexivity|].
        intros Hf. assert (Hf' : p_track_trajectories q = false) by (rewrite <- Hf; symmetry; apply Hq1).
        rewrite Hq2', Ht0 by assumption. reflexivity.
      + exact Hlast.
      + exists e. rewrite Hen. auto.
      + unfold losses_end_at_final_point. rewrite Hpos, Hen. intros Hi. apply Hq4.
        rewrite <- Hi. apply Hid.
      + lia.
    - exists l. split; [exact Hl|].
      eapply Forall_impl; [|exact HF]. intros r [Hr Hn]. split; [|exact Hn].
      eapply recoil_of_identity; [|exact Hr]. rewrite Hd.
      destruct (p_first_step p); [|apply same_identity_refl].
      unfold same_identity; simpl; repeat split; auto.
  Qed.

  (** ** the loop over one particle's flight *)
  Record flight_relation (mat : Material F) (options : Options F) (p p' : Particle F) : Prop := {
    fr_identity : same_identity p p';
    fr_outcome : came_to_rest mat p' \/ escaped mat p';
    fr_history : history_extends options p p';
    fr_last : ends_at_final_point p';
    fr_last_loss : losses_end_at_final_point options p' }.

  Lemma history_refl options (p : Particle F) : history_extends options p p.
  Proof.
    unfold history_extends. split; [|split].
    - exists []. rewrite app_nil_r. auto.
    - exists []. rewrite app_nil_r. auto.
    - lia.
  Qed.
  Lemma history_trans options (p q r : Particle F) :
    same_identity p q -> history_extends options p q -> history_extends options q r -> history_extends options p r.
  Proof.
    intros Hid ((t1 & Ht1 & Ht1') & (e1 & He1 & He1') & Hc1) ((t2 & Ht2 & Ht2') & (e2 & He2 & He2') & Hc2).
    assert (Htr : p_track_trajectories p = p_track_trajectories q) by apply Hid.
    assert (Hin : p_incident p = p_incident q) by apply Hid.
    split; [|split].
    - exists (t1 ++ t2). rewrite Ht2, Ht1, app_assoc. split; [reflexivity|].
      intros Hf. rewrite Ht1', Ht2' by congruence. reflexivity.
    - exists (e1 ++ e2). rewrite He2, He1, app_assoc. split; [reflexivity|].
      intros Hf. rewrite He1', He2' by congruence. reflexivity.
    - lia.
  Qed.
  Lemma step_history mat options p p' : step_relation mat options p p' -> history_extends options p p'.
  Proof. intros [? ? ? ? ? ? ?]. split; [|split]; assumption. Qed.

  Lemma finished_not_active mat (p : Particle F) : came_to_rest mat p \/ escaped mat p -> ~ active p.
  Proof.
    intros [(Hs & _)|(Hl & _)] [Ha1 Ha2]; congruence.
  Qed.
  Lemma active_dec (p : Particle F) : {active p} + {~ active p}.
  Proof.
    unfold active. destruct (p_stopped p), (p_left p); ((left; split; reflexivity) || right; intros [? ?]; discriminate).
  Qed.
  Lemma active_test (p : Particle F) : active p -> negb (p_stopped p) && negb (p_left p) = true.
  Proof. intros [-> ->]. reflexivity. Qed.
  Lemma not_active_test (p : Particle F) : ~ active p -> negb (p_stopped p) && negb (p_left p) = false.
  Proof.
    unfold active. destruct (p_stopped p), (p_left p); simpl; try reflexivity. intros H. elim H; auto.
  Qed.

  Lemma bca_loop_ok build mat options fuel : forall p particles i rng n p' particles' i' n',
    active p ->
    bca_loop build mat options fuel p particles i rng n = Ok ((p', particles', i'), n') ->
    flight_relation mat options p p' /\ i' = length particles' /\
    exists l, particles' = l ++ particles /\
      Forall (fun r => recoil_of mat options p r /\ newborn r) l.
  Proof.
    induction fuel as [|fuel IH]; intros p particles i rng n p' particles' i' n' Ha H; [discriminate H|].
    cbn [bca_loop] in H. rewrite (active_test p Ha) in H.
    apply mbind_ok in H. destruct H as ([p1 parts1] & n1 & Hstep & H).
    apply bca_step_ok in Hstep; [|exact Ha]. destruct Hstep as (Hsr & l1 & Hl1 & HF1).
    destruct (active_dec p1) as [Ha1|Hna1].
    - apply IH in H; [|exact Ha1]. destruct H as (Hfr & Hi & l2 & Hl2 & HF2).
      split.
      + destruct Hfr. constructor; try assumption.
        * eapply same_identity_trans; [apply Hsr|assumption].
        * eapply history_trans; [apply Hsr|apply (step_history mat); exact Hsr|assumption].
      + split; [exact Hi|]. exists (l2 ++ l1). split; [rewrite Hl2, Hl1, app_assoc; reflexivity|].
        apply Forall_app. split; [|exact HF1].
        eapply Forall_impl; [|exact HF2]. intros r [Hr Hn]. split; [|exact Hn].
        eapply recoil_of_identity; [apply Hsr|exact Hr].
    - destruct fuel as [|fuel]; [discriminate H|].
      cbn [bca_loop] in H. rewrite (not_active_test p1 Hna1) in H.
      apply mret_ok in H. destruct H as (H & _). injection H; intros; subst p' particles' i'.
      split.
      + constructor.
        * apply Hsr.
        * destruct (sr_outcome _ _ _ _ Hsr) as [Hx|Hx]; [contradiction|exact Hx].
        * apply (step_history mat); exact Hsr.
        * destruct (sr_last _ _ _ _ Hsr) as [Hx|Hx]; [contradiction|exact Hx].
        * apply Hsr.
      + split; [reflexivity|]. exists l1. split; [exact Hl1|exact HF1].
  Qed.

  (** ** the loop over the stack *)
  (** [p] is the final state of a recoil of [ion]. *)
  Definition finished_recoil (mat : Material F) (options : Options F) (ion p : Particle F) : Prop :=
    exists p0, recoil_of mat options ion p0 /\ newborn p0 /\ flight_relation mat options p0 p.

  Lemma flight_recoil mat options ion p0 p :
    recoil_of mat options ion p0 -> flight_relation mat options p0 p -> recoil_of mat options ion p.
  Proof.
    intros (H1 & (i & H2) & H3 & H4 & H5 & H6 & H7 & H8 & H9) Hf.
    destruct (fr_identity _ _ _ _ Hf) as (I1&I2&I3&I4&I5&I6&I7&I8&I9&I10&I11&I12&I13).
    unfold recoil_of, atom_of_species in *.
    rewrite <- I3, <- I6, <- I7, <- I8, <- I9, <- I11, <- I12, <- I13.
    intuition. exists i. rewrite <- I1, <- I2, <- I4, <- I5, <- I10. intuition.
  Qed.

  Lemma stack_loop_ok build mat options ion fuel : forall particles out i rng n res n',
    i = length particles ->
    Forall (fun r => recoil_of mat options ion r /\ newborn r) particles ->
    stack_loop build mat options fuel particles out i rng n = Ok (res, n') ->
    exists l, res = out ++ l /\ Forall (finished_recoil mat options ion) l.
  Proof.
    induction fuel as [|fuel IH]; intros particles out i rng n res n' Hi HF H; [discriminate H|].
    cbn [stack_loop] in H. destruct i as [|i].
    - apply mret_ok in H. destruct H as [-> _]. exists []. rewrite app_nil_r. split; [reflexivity|constructor].
    - destruct particles as [|p particles]; [discriminate Hi|].
      apply mbind_ok in H. destruct H as ([[p' parts'] i'] & n1 & Hloop & H).
      inversion HF as [|? ? [Hr Hn] HF']; subst.
      apply bca_loop_ok in Hloop; [|destruct Hn as (?&?&_); split; assumption].
      destruct Hloop as (Hfr & Hi' & l & Hl & HFl).
      apply IH in H; [|exact Hi'|].
      + destruct H as (l2 & -> & HF2). exists (p' :: l2). rewrite <- app_assoc. split; [reflexivity|].
        constructor; [|exact HF2]. exists p. auto.
      + rewrite Hl. apply Forall_app. split; [|exact HF'].
        eapply Forall_impl; [|exact HFl]. intros r [Hr' Hn']. split; [|exact Hn'].
        destruct Hr as (_&_&_&_&Hw&Ht&Hv&_).
        eapply recoil_of_same; [| | |exact Hr']; congruence.
  Qed.

  (** An already finished particle makes single_ion_bca panic. *)
  Lemma single_finished_panics build mat options fuel ion rng n :
    ~ active ion -> single_ion_bca build mat options (S (S fuel)) ion rng n = Panic UnwrapNone.
  Proof.
    intros Ha. unfold single_ion_bca. cbn [stack_loop].
    unfold mbind. cbn [bca_loop]. rewrite (not_active_test _ Ha). reflexivity.
  Qed.
  Lemma single_ok_active build mat options fuel ion rng n out n' :
    single_ion_bca build mat options fuel ion rng n = Ok (out, n') -> active ion.
  Proof.
    intros H. destruct (active_dec ion) as [Ha|Ha]; [exact Ha|]. exfalso.
    destruct fuel as [|[|fuel]].
    - discriminate H.
    - unfold single_ion_bca in H. cbn [stack_loop] in H. unfold mbind in H. cbn [bca_loop] in H.
      rewrite (not_active_test _ Ha) in H. discriminate H.
    - rewrite single_finished_panics in H by exact Ha. discriminate H.
  Qed.

  Theorem single_ion_ok build mat options fuel ion rng n out n' :
    single_ion_bca build mat options fuel ion rng n = Ok (out, n') ->
    active ion /\
    exists ion' recoils, out = ion' :: recoils /\
      flight_relation mat options ion ion' /\
      Forall (finished_recoil mat options ion) recoils.
  Proof.
    intros H. pose proof (single_ok_active _ _ _ _ _ _ _ _ _ H) as Ha. split; [exact Ha|].
    unfold single_ion_bca in H. destruct fuel as [|fuel]; [discriminate H|].
    cbn [stack_loop] in H.
    apply mbind_ok in H. destruct H as ([[p' parts'] i'] & n1 & Hloop & H).
    apply bca_loop_ok in Hloop; [|exact Ha]. destruct Hloop as (Hfr & Hi & l & Hl & HF).
    apply (stack_loop_ok build mat options ion) in H; [|exact Hi|rewrite Hl, app_nil_r; exact HF].
    destruct H as (l2 & -> & HF2). exists p', l2. auto.
  Qed.

  (** ** consequences in the vocabulary of Spec.v *)
  Lemma run_finished build mat options fuel ion rng n out n' :
    single_ion_bca build mat options fuel ion rng n = Ok (out, n') ->
    Forall (fun p => came_to_rest mat p \/ escaped mat p) out.
  Proof.
    intros H. apply single_ion_ok in H. destruct H as (_ & ion' & l & -> & Hf & HF).
    constructor; [apply Hf|]. eapply Forall_impl; [|exact HF].
    intros p (p0 & _ & _ & Hp). apply Hp.
  Qed.
  Lemma run_first build mat options fuel ion rng n out n' :
    single_ion_bca build mat options fuel ion rng n = Ok (out, n') ->
    exists ion' recoils, out = ion' :: recoils /\ same_identity ion ion' /\
      Forall (fun r => p_incident r = false) recoils.
  Proof.
    intros H. apply single_ion_ok in H. destruct H as (_ & ion' & l & -> & Hf & HF).
    exists ion', l. split; [reflexivity|]. split; [apply Hf|].
    eapply Forall_impl; [|exact HF]. intros p (p0 & Hr & _ & Hp).
    apply (flight_recoil mat options ion p0 p Hr Hp).
  Qed.
  Lemma run_recoils build mat options fuel ion rng n out n' :
    single_ion_bca build mat options fuel ion rng n = Ok (out, n') ->
    Forall (recoil_of mat options ion) (tl out).
  Proof.
    intros H. apply single_ion_ok in H. destruct H as (_ & ion' & l & -> & Hf & HF).
    simpl. eapply Forall_impl; [|exact HF]. intros p (p0 & Hr & _ & Hp).
    exact (flight_recoil mat options ion p0 p Hr Hp).
  Qed.
  Lemma run_no_recoils build mat options fuel ion rng n out n' :
    o_track_recoils options = false ->
    single_ion_bca build mat options fuel ion rng n = Ok (out, n') ->
    exists ion', out = [ion'] /\ same_identity ion ion'.
  Proof.
    intros Ho H. apply single_ion_ok in H. destruct H as (_ & ion' & l & -> & Hf & HF).
    destruct l as [|r l].
    - exists ion'. split; [reflexivity|apply Hf].
    - inversion HF as [|? ? (p0 & Hr & _) _]; subst.
      destruct Hr as (_&_&_&_&_&_&_&_&Ht). congruence.
  Qed.
  Lemma run_histories build mat options fuel ion rng n out n' :
    single_ion_bca build mat options fuel ion rng n = Ok (out, n') ->
    (forall ion', hd_error out = Some ion' -> history_extends options ion ion') /\
    Forall (fun r => exists r0, newborn r0 /\ same_identity r0 r /\ history_extends options r0 r) (tl out) /\
    Forall (fun p => ends_at_final_point p /\ losses_end_at_final_point options p) out.
  Proof.
    intros H. apply single_ion_ok in H. destruct H as (_ & ion' & l & -> & Hf & HF).
    split; [|split].
    - simpl. intros p Hp. injection Hp; intros; subst. apply Hf.
    - simpl. eapply Forall_impl; [|exact HF]. intros p (p0 & Hr & Hn & Hp).
      exists p0. split; [exact Hn|]. split; apply Hp.
    - constructor; [split; apply Hf|].
      eapply Forall_impl; [|exact HF]. intros p (p0 & Hr & Hn & Hp). split; apply Hp.
  Qed.

  (** ** more fuel does not change a result *)
  Lemma mbind_res {A B} (m : M F A) (f : A -> M F B) rng n :
    mbind m f rng n = match m rng n with Ok (a, n') => f a rng n' | Panic k => Panic k | OutOfFuel => OutOfFuel end.
  Proof. reflexivity. Qed.
  Lemma bca_loop_mono build mat options fuel : forall fuel' p particles i rng n r,
    fuel <= fuel' ->
    bca_loop build mat options fuel p particles i rng n = r -> r <> OutOfFuel ->
    bca_loop build mat options fuel' p particles i rng n = r.
  Proof.
    induction fuel as [|fuel IH]; intros fuel' p particles i rng n r Hle H Hr.
    - simpl in H. congruence.
    - destruct fuel' as [|fuel']; [lia|]. cbn [bca_loop] in *.
      destruct (negb (p_stopped p) && negb (p_left p)); [|exact H].
      rewrite mbind_res in *. destruct (bca_step build mat options p particles rng n) as [[[p1 parts1] n1]|k|]; try exact H.
      apply IH; [lia|exact H|exact Hr].
  Qed.
  Lemma stack_loop_mono build mat options fuel : forall fuel' particles out i rng n r,
    fuel <= fuel' ->
    stack_loop build mat options fuel particles out i rng n = r -> r <> OutOfFuel ->
    stack_loop build mat options fuel' particles out i rng n = r.
  Proof.
    induction fuel as [|fuel IH]; intros fuel' particles out i rng n r Hle H Hr.
    - simpl in H. congruence.
    - destruct fuel' as [|fuel']; [lia|]. cbn [stack_loop] in *.
      destruct i; [exact H|]. destruct particles as [|p particles]; [exact H|].
      rewrite mbind_res in *.
      destruct (bca_loop build mat options (S fuel) p particles (S i) rng n) as [[[[p1 parts1] i1] n1]|k|] eqn:E.
      + rewrite (bca_loop_mono _ _ _ _ (S fuel') _ _ _ _ _ _ Hle E) by discriminate.
        apply IH; [lia|exact H|exact Hr].
      + rewrite (bca_loop_mono _ _ _ _ (S fuel') _ _ _ _ _ _ Hle E) by discriminate. exact H.
      + congruence.
  Qed.
  Lemma single_ion_mono build mat options fuel fuel' ion rng n r :
    fuel <= fuel' -> single_ion_bca build mat options fuel ion rng n = r -> r <> OutOfFuel ->
    single_ion_bca build mat options fuel' ion rng n = r.
  Proof. apply stack_loop_mono. Qed.

  (** ** the pop of the stack never fails for an active ion *)
  Definition step_never_pops_empty build mat options : Prop :=
    forall p particles rng n, bca_step build mat options p particles rng n <> Panic UnwrapNone.
  Lemma bca_loop_no_none build mat options fuel :
    step_never_pops_empty build mat options ->
    forall p particles i rng n, bca_loop build mat options fuel p particles i rng n <> Panic UnwrapNone.
  Proof.
    intros Hs. induction fuel as [|fuel IH]; intros p particles i rng n; [discriminate|].
    cbn [bca_loop]. destruct (negb (p_stopped p) && negb (p_left p)); [|discriminate].
    rewrite mbind_res. specialize (Hs p particles rng n).
    destruct (bca_step build mat options p particles rng n) as [[[p1 parts1] n1]|k|]; [apply IH|congruence|discriminate].
  Qed.
  Lemma stack_loop_no_none build mat options fuel :
    step_never_pops_empty build mat options ->
    forall particles out i rng n, i = length particles -> Forall active particles ->
    stack_loop build mat options fuel particles out i rng n <> Panic UnwrapNone.
  Proof.
    intros Hs. induction fuel as [|fuel IH]; intros particles out i rng n Hi HF; [discriminate|].
    cbn [stack_loop]. destruct i; [discriminate|].
    destruct particles as [|p particles]; [discriminate|].
    inversion HF as [|? ? Ha HF']; subst.
    rewrite mbind_res.
    pose proof (bca_loop_no_none build mat options (S fuel) Hs p particles (S i) rng n) as Hn.
    destruct (bca_loop build mat options (S fuel) p particles (S i) rng n) as [[[[p1 parts1] i1] n1]|k|] eqn:E; try congruence.
    apply bca_loop_ok in E; [|exact Ha]. destruct E as (_ & Hi1 & l & Hl & HFl).
    apply IH; [exact Hi1|]. rewrite Hl. apply Forall_app. split; [|exact HF'].
    eapply Forall_impl; [|exact HFl]. intros r [_ (H1 & H2 & _)]. split; assumption.
  Qed.
  Lemma single_active_no_none build mat options fuel ion rng n :
    (forall p particles rng n, bca_step build mat options p particles rng n <> Panic UnwrapNone) ->
    active ion -> single_ion_bca build mat options fuel ion rng n <> Panic UnwrapNone.
  Proof. intros Hs Ha. apply stack_loop_no_none; auto. Qed.
End Bca.
