(** * ProofsFlight.v - free flight, barrier and stopping inside one iteration *)
From Coq Require Import ZArith List Bool Reals Lra Lia.
From Verif Require Import Num NumR ModelTypes ModelConsts ModelParticle ModelInteractions ModelGeometry
  ModelMaterial ModelBca Spec SpecR ProofsBase ProofsBca ProofsStep ProofsKinematics ProofsSurface.
Import ListNotations.
Open Scope R_scope.

(** ** frames for any number type *)
Section Frames.
  Context {F : Type} {NF : Num F}.
  Definition flight_frame (p q : Particle F) : Prop :=
    p_pos q = p_pos p /\ p_pos_old q = p_pos_old p /\ p_dir_old q = p_dir_old p /\
    p_asymptotic_deflection q = p_asymptotic_deflection p.
  Lemma tracker_frame (p : Particle F) : flight_frame p (update_trajectory_tracker p) /\
    p_dir (update_trajectory_tracker p) = p_dir p /\ p_E (update_trajectory_tracker p) = p_E p /\
    p_backreflected (update_trajectory_tracker p) = p_backreflected p /\
    p_left (update_trajectory_tracker p) = p_left p /\ p_stopped (update_trajectory_tracker p) = p_stopped p.
  Proof. unfold flight_frame, update_trajectory_tracker. destruct (p_track_trajectories p); cbn; auto 10. Qed.

  (** the end of an iteration: the particle is finished as it is, or meets the barrier *)
  Lemma boundary_cases mat (p p' : Particle F) :
    active p -> boundary_condition_planar mat p = Ok p' ->
    active p' /\ surface_binding_energy mat p = Ok p' /\ in_boundary mat (p_pos p) = true \/
    ~ active p' /\ p_dir p' = p_dir p /\ p_E p' = p_E p /\ p_backreflected p' = p_backreflected p /\ flight_frame p p'.
  Proof.
    intros [Hs Hl] H. unfold boundary_condition_planar in H. apply bind_ok in H. destruct H as (b & Hb & H).
    unfold in_boundary. change (mat_inside_simulation_boundary mat (vx (p_pos p)) (vy (p_pos p)) (vz (p_pos p)))
      with (g_inside_simulation_boundary (mat_geometry mat) (vx (p_pos p)) (vy (p_pos p)) (vz (p_pos p))) in H.
    destruct (g_inside_simulation_boundary (mat_geometry mat) (vx (p_pos p)) (vy (p_pos p)) (vz (p_pos p))); cbn [negb] in H.
    - rewrite Hl in H. cbn [negb] in H. rewrite andb_true_r in H.
      destruct ((p_E p <! p_Ec p) && b).
      + right. pose proof (tracker_frame (set_p_stopped true p)) as (Hf & Hd & HE & Hbr & Hlf & Hst).
        rewrite Hst in H. cbn [p_stopped set_p_stopped negb andb] in H. inv_ok.
        split; [intros [? ?]; rewrite Hst in *; discriminate|]. auto.
      + rewrite Hs, Hl in H. cbn [negb andb] in H. left. split; [|auto].
        apply surface_frame in H. rewrite H. split; assumption.
    - right. pose proof (tracker_frame (set_p_left true p)) as (Hf & Hd & HE & Hbr & Hlf & Hst).
      rewrite Hlf in H. cbn [p_left set_p_left negb] in H. rewrite andb_false_r in H. cbn [andb] in H.
      rewrite Hlf in H. cbn [p_left set_p_left negb] in H. rewrite andb_false_r in H. inv_ok.
      split; [intros [? ?]; rewrite Hlf in *; discriminate|]. auto.
  Qed.
  Lemma boundary_flight_frame mat (p p' : Particle F) :
    active p -> boundary_condition_planar mat p = Ok p' -> flight_frame p p'.
  Proof.
    intros Ha H. destruct (boundary_cases _ _ _ Ha H) as [(_ & Hs & _)|(_ & _ & _ & _ & Hf)]; [|exact Hf].
    apply surface_frame in Hs. rewrite Hs. unfold flight_frame; cbn; auto.
  Qed.

  (** one iteration, unfolded to the state [q] just before the boundary conditions *)
  Lemma bca_step_states build mat options (p : Particle F) particles rng n p' particles' n' :
    active p ->
    bca_step build mat options p particles rng n = Ok ((p', particles'), n') ->
    exists p0 bcgs n1 cs bcg0 dist q loss,
      determine_mfp_phi_impact_parameter mat options p rng n = Ok ((p0, bcgs), n1) /\
      collision_loop build mat options 0 (firstn (S (o_weak_collision_order options)) bcgs)
        (mkCS p0 particles (nZ 0) (nZ 0) (nZ 0) (nZ 0) 0%nat) rng n1 = Ok (cs, n') /\
      nth_error bcgs 0 = Some bcg0 /\
      dist = bcg_mfp bcg0 +! p_asymptotic_deflection p -! cs_total_asymptotic_deflection cs /\
      (exists qa, qa = fst (advance (bcg_mfp bcg0) (cs_total_asymptotic_deflection cs) (cs_particle_1 cs)) /\
         p_E qa = p_E (cs_particle_1 cs) /\
         subtract_electronic_stopping_energy mat options qa dist
               (cs_normalized_distance_of_closest_approach cs) (cs_strong_collision_Z cs)
               (cs_strong_collision_index cs) = Ok (q, loss)) /\
      p_pos q = mkV (vx (p_pos p) +! vx (p_dir_old p) *! dist) (vy (p_pos p) +! vy (p_dir_old p) *! dist)
                    (vz (p_pos p) +! vz (p_dir_old p) *! dist) /\
      p_pos_old q = p_pos p /\ p_dir_old q = p_dir q /\ p_dir q = p_dir (cs_particle_1 cs) /\
      p_asymptotic_deflection q = cs_total_asymptotic_deflection cs /\
      p_backreflected q = p_backreflected p /\ active q /\ same_identity p q /\
      boundary_condition_planar mat
        (update_energy_loss_tracker options (cs_total_energy_lost_to_recoils cs) loss q) = Ok p' /\
      particles' = cs_particles cs.
  Proof.
    intros Ha H. apply bca_step_inv in H.
    destruct H as (p0 & bcgs & n1 & cs & bcg0 & qa & dist & q & loss & Hd & Hloop & Hb0 & Hadv & Hsub & Hb & ->).
    pose proof (determine_frame _ _ _ _ _ _ _ _ Hd) as Hp0.
    pose proof (collision_loop_ok _ _ _ _ _ _ _ _ _ _ Hloop) as (Hf & _).
    cbn [cs_particle_1] in Hf.
    assert (Hf0 : collision_frame p (cs_particle_1 cs)).
    { eapply collision_frame_trans; [|exact Hf]. rewrite Hp0.
      destruct (p_first_step p); [|apply collision_frame_refl].
      unfold collision_frame, same_identity; simpl; repeat split; auto. }
    destruct Hf0 as (Hid & Hpos & Hpo & Hdo & Hasy & Hst & Hlf & Hbr & Htj & Hes & Hcnt).
    remember (cs_particle_1 cs) as c1 eqn:Ec1.
    assert (Htr : forall b : bool, let t := if b then update_trajectory_tracker c1 else c1 in
              p_pos t = p_pos p /\ p_dir_old t = p_dir_old p /\ p_asymptotic_deflection t = p_asymptotic_deflection p /\
              p_backreflected t = p_backreflected p /\ p_left t = p_left p /\ p_stopped t = p_stopped p /\
              p_dir t = p_dir c1 /\ p_E t = p_E c1 /\ same_identity p t).
    { intros []; cbv zeta.
      - destruct (tracker_frame c1) as ((F1 & F2 & F3 & F4) & F5 & F6 & F7 & F8 & F9).
        rewrite F1, F3, F4, F5, F6, F7, F8, F9. repeat split; try assumption; try congruence.
        + unfold update_trajectory_tracker. destruct (p_track_trajectories c1); cbn; apply Hid.
        + unfold update_trajectory_tracker. destruct (p_track_trajectories c1); cbn; apply Hid.
        + unfold update_trajectory_tracker. destruct (p_track_trajectories c1); cbn; apply Hid.
        + unfold update_trajectory_tracker. destruct (p_track_trajectories c1); cbn; apply Hid.
        + unfold update_trajectory_tracker. destruct (p_track_trajectories c1); cbn; apply Hid.
        + unfold update_trajectory_tracker. destruct (p_track_trajectories c1); cbn; apply Hid.
        + unfold update_trajectory_tracker. destruct (p_track_trajectories c1); cbn; apply Hid.
        + unfold update_trajectory_tracker. destruct (p_track_trajectories c1); cbn; apply Hid.
        + unfold update_trajectory_tracker. destruct (p_track_trajectories c1); cbn; apply Hid.
        + unfold update_trajectory_tracker. destruct (p_track_trajectories c1); cbn; apply Hid.
        + unfold update_trajectory_tracker. destruct (p_track_trajectories c1); cbn; apply Hid.
        + unfold update_trajectory_tracker. destruct (p_track_trajectories c1); cbn; apply Hid.
        + unfold update_trajectory_tracker. destruct (p_track_trajectories c1); cbn; apply Hid.
      - repeat split; try assumption; apply Hid. }
    pose proof (f_equal fst Hadv) as Hq0. cbn [fst] in Hq0. symmetry in Hq0.
    unfold advance in Hadv. specialize (Htr (p_Ec c1 <! p_E c1)). cbv zeta in Htr.
    set (t := if p_Ec c1 <! p_E c1 then update_trajectory_tracker c1 else c1) in *. 
    destruct Htr as (T1 & T2 & T3 & T4 & T5 & T6 & T7 & T8 & T9).
    injection Hadv; clear Hadv; intros Hdist Hqa. cbn in Hdist. rewrite T3 in Hdist.
    exists p0, bcgs, n1, cs, bcg0, dist, q, loss.
    split; [exact Hd|]. split; [exact Hloop|]. split; [exact Hb0|]. split; [symmetry; exact Hdist|].
    split. { exists qa. split; [rewrite <- Ec1; exact Hq0|]. rewrite <- Ec1. split; [|exact Hsub]. subst qa. cbn. exact T8. }
    assert (Q : p_pos qa = mkV (vx (p_pos p) +! vx (p_dir_old p) *! dist) (vy (p_pos p) +! vy (p_dir_old p) *! dist)
                    (vz (p_pos p) +! vz (p_dir_old p) *! dist) /\
      p_pos_old qa = p_pos p /\ p_dir_old qa = p_dir qa /\ p_dir qa = p_dir c1 /\
      p_asymptotic_deflection qa = cs_total_asymptotic_deflection cs /\
      p_backreflected qa = p_backreflected p /\ active qa /\ same_identity p qa).
    { rewrite <- Hqa. clear Hsub Hb Hloop. cbn. rewrite T1, T2, T3, T4, T7, Hdist.
      destruct Ha as [Ha1 Ha2].
      repeat split; try reflexivity; try (destruct (p_pos p); reflexivity); try (destruct (p_dir c1); reflexivity);
      try apply T9; cbn; congruence. }
    rewrite <- Ec1.
    pose proof (subtract_frame _ _ _ _ _ _ _ _ _ Hsub) as (E & ->).
    destruct Q as (Q1 & Q2 & Q3 & Q4 & Q5 & Q6 & Q7 & Q8).
    cbn. repeat split; try assumption; try apply Q7; try apply Q8.
  Qed.
End Frames.

Lemma loss_tracker_frame {F} {NF : Num F} options En Ee (p : Particle F) :
  exists l, update_energy_loss_tracker options En Ee p = set_p_energies l p.
Proof.
  unfold update_energy_loss_tracker. destruct (_ && _); [eexists; reflexivity|].
  exists (p_energies p). destruct p; reflexivity.
Qed.

(** ** displacement in one iteration *)
Lemma step_displacement build (mat : Material R) options p particles rng n p' particles' n' :
  active p ->
  bca_step build mat options p particles rng n = Ok ((p', particles'), n') ->
  exists p0 bcgs n1 bcg0,
    determine_mfp_phi_impact_parameter mat options p rng n = Ok ((p0, bcgs), n1) /\
    nth_error bcgs 0 = Some bcg0 /\
    p_pos p' = vplus (p_pos p)
      (vscale (bcg_mfp bcg0 + p_asymptotic_deflection p - p_asymptotic_deflection p') (p_dir_old p)) /\
    p_pos_old p' = p_pos p.
Proof.
  intros Ha H. apply bca_step_states in H; [|exact Ha].
  destruct H as (p0 & bcgs & n1 & cs & bcg0 & dist & q & loss & Hd & _ & Hb0 & Hdist & _ & Hpos & Hpo & _ & _ & Hasy & _ & Haq & _ & Hb & _).
  exists p0, bcgs, n1, bcg0. split; [exact Hd|]. split; [exact Hb0|].
  destruct (loss_tracker_frame options (cs_total_energy_lost_to_recoils cs) loss q) as (l & El).
  rewrite El in Hb. apply boundary_flight_frame in Hb; [|exact Haq].
  destruct Hb as (F1 & F2 & F3 & F4). cbn in F1, F2, F3, F4.
  rewrite F1, F2, F4, Hpos, Hpo, Hasy. split; [|reflexivity].
  rewrite Hdist. toR. unfold vplus, vscale. cbn [vx vy vz]. f_equal; ring.
Qed.
(** the direction of the next displacement is the direction after the collisions of this iteration *)
Lemma step_dir_old build (mat : Material R) options p particles rng n p' particles' n' :
  active p ->
  bca_step build mat options p particles rng n = Ok ((p', particles'), n') ->
  exists q, active q /\ p_dir_old p' = p_dir q /\ p_pos q = p_pos p' /\ p_pos_old q = p_pos_old p' /\
    p_backreflected q = p_backreflected p /\ same_identity p q /\
    boundary_condition_planar mat q = Ok p'.
Proof.
  intros Ha H. apply bca_step_states in H; [|exact Ha].
  destruct H as (p0 & bcgs & n1 & cs & bcg0 & dist & q & loss & _ & _ & _ & _ & _ & _ & _ & Hdo & _ & _ & Hbr & Haq & Hid & Hb & _).
  destruct (loss_tracker_frame options (cs_total_energy_lost_to_recoils cs) loss q) as (l & El).
  rewrite El in Hb. exists (set_p_energies l q).
  pose proof (boundary_flight_frame _ _ _ (Haq : active (set_p_energies l q)) Hb) as (F1 & F2 & F3 & F4). cbn in F1, F2, F3, F4.
  split; [exact Haq|]. cbn. rewrite F1, F2, F3. repeat split; try assumption; try apply Hid.
Qed.
Lemma step_dir_old_uncrossed build (mat : Material R) options p particles rng n p' particles' n' :
  active p ->
  bca_step build mat options p particles rng n = Ok ((p', particles'), n') ->
  in_barrier mat (p_pos p') = in_barrier mat (p_pos p) \/ ~ active p' ->
  p_dir_old p' = p_dir p'.
Proof.
  intros Ha H Hcase. pose proof (step_displacement _ _ _ _ _ _ _ _ _ _ Ha H) as (_ & _ & _ & _ & _ & _ & _ & Hpo).
  apply step_dir_old in H; [|exact Ha]. destruct H as (q & Haq & Hdo & Hp & Hpq & _ & _ & Hb).
  rewrite Hdo. destruct (boundary_cases _ _ _ Haq Hb) as [(Hact & Hs & _)|(_ & Hdir & _)]; [|congruence].
  destruct Hcase as [Hcase|Hcase]; [|contradiction].
  apply surface_inv in Hs. destruct Hs as (Es & now & before & _ & Hn & Hbf & Hm).
  rewrite Hpq, Hpo in Hbf. rewrite Hp in Hn. rewrite Hcase, Hbf in Hn. injection Hn; intros ->.
  destruct now; subst; reflexivity.
Qed.

(** ** the barrier, leaving *)
Lemma barrier_leaving mat (p p' : Particle R) Es c :
  surface_binding_energy mat p = Ok p' ->
  in_barrier mat (p_pos_old p) = Ok true -> in_barrier mat (p_pos p) = Ok false ->
  actual_surface_binding_energy mat p (vx (p_pos_old p)) (vy (p_pos_old p)) (vz (p_pos_old p)) = Ok Es ->
  mat_closest_point mat (vx (p_pos p)) (vy (p_pos p)) (vz (p_pos p)) = Ok (vx c, vy c, vz c) ->
  p_pos p <> c -> is_unit (p_dir p) -> 0 <= p_E p ->
  let n := vtoward (p_pos p) c in
  let leaving_energy := if isotropic (mat_surface_binding_model mat) then p_E p
                        else p_E p * (vdot (p_dir p) n * vdot (p_dir p) n) in
  is_unit n /\
  (0 <= vdot (p_dir p) n -> p' = p) /\
  (vdot (p_dir p) n < 0 -> Es < leaving_energy ->
     p_E p' = p_E p - Es /\ p_backreflected p' = p_backreflected p /\ is_unit (p_dir p') /\
     (if isotropic (mat_surface_binding_model mat) then p_dir p' = p_dir p
      else (forall t, vdot t n = 0 -> sqrt (p_E p') * vdot (p_dir p') t = sqrt (p_E p) * vdot (p_dir p) t) /\
           sqrt (p_E p') * vdot (p_dir p') n = - sqrt (leaving_energy - Es))) /\
  (vdot (p_dir p) n < 0 -> leaving_energy <= Es ->
     p_E p' = p_E p /\ p_backreflected p' = true /\ is_unit (p_dir p') /\
     vdot (p_dir p') n = - vdot (p_dir p) n /\
     (forall t, vdot t n = 0 -> vdot (p_dir p') t = vdot (p_dir p) t)).
Proof.
  intros H Hbef Hnow HEs Hc Hne Hu HE. cbv zeta.
  apply surface_inv in H. destruct H as (Es' & now & before & HEs' & Hn & Hb & Hm).
  rewrite HEs in HEs'. injection HEs'; intros <-.
  rewrite Hnow in Hn. injection Hn; intros <-. rewrite Hbef in Hb. injection Hb; intros <-.
  cbv zeta in Hm. destruct Hm as (c' & Hc' & Hm). rewrite Hc in Hc'.
  assert (c' = c) by (destruct c, c'; cbn in Hc'; congruence). subst c'.
  pose proof (vtoward_unit _ _ Hne) as Hnu.
  set (nn := vtoward (p_pos p) c) in *. set (ct := vdot (p_dir p) nn) in *.
  split; [exact Hnu|].
  rewrite Rmult_assoc in Hm.
  set (L := if isotropic _ then p_E p else p_E p * (ct * ct)) in *.
  destruct Hm as [(Hm & ->)|[(Hm1 & Hm2 & ->)|(Hm1 & Hm2 & ->)]].
  - split; [reflexivity|]. split; intros; exfalso; lra.
  - split; [intros; exfalso; lra|]. split; [|intros; exfalso; lra]. intros _ _.
    destruct (isotropic (mat_surface_binding_model mat)) eqn:Hiso; unfold L in *.
    + cbn. repeat split; auto.
    + rewrite surface_refraction_value. cbn [p_E p_dir p_backreflected set_p_E set_p_dir].
      assert (Hn1 : is_unit (vscale (-1) nn)).
      { unfold is_unit in *. transitivity (vdot nn nn); [unfold vdot, vscale; cbn; ring|exact Hnu]. }
      assert (Hdot : forall v, vdot v (vscale (-1) nn) = - vdot v nn) by (intros; unfold vdot, vscale; cbn; ring).
      assert (Hct2 : ct * ct <= 1).
      { unfold ct. pose proof Hnu as E1. pose proof Hu as E2. unfold is_unit in E1, E2.
        clear - E1 E2. destruct (p_dir p) as [a b d], nn as [e f g]. unfold vdot in *. cbn in *.
        assert (H : (a*a+b*b+d*d)*(e*e+f*f+g*g) - (a*e+b*f+d*g)*(a*e+b*f+d*g)
                = (a*f-b*e)*(a*f-b*e) + (a*g-d*e)*(a*g-d*e) + (b*g-d*f)*(b*g-d*f)) by ring.
        rewrite E1, E2 in H.
        pose proof (Rle_0_sqr (a*f-b*e)). pose proof (Rle_0_sqr (a*g-d*e)). pose proof (Rle_0_sqr (b*g-d*f)).
        unfold Rsqr in *. lra. }
      assert (Hpos : 0 < p_E p + - Es) by nra.
      assert (Hq : 0 <= p_E p * (vdot (p_dir p) (vscale (-1) nn) * vdot (p_dir p) (vscale (-1) nn)) + - Es).
      { rewrite !Hdot. fold ct. replace (- ct * - ct) with (ct * ct) by ring. lra. }
      destruct (refraction_facts _ _ _ _ Hn1 Hu HE Hpos Hq) as (R1 & R2 & R3 & _).
      set (u := vplus _ _) in *. clearbody u.
      split; [ring|]. split; [reflexivity|]. split; [exact R1|]. split.
      * intros t Ht. apply R2. rewrite Hdot, Ht. ring.
      * rewrite !Hdot in R3. fold ct in R3 |- *.
        replace (p_E p * (- ct * - ct) + - Es) with (p_E p * (ct * ct) - Es) in R3 by ring.
        rewrite <- R3. ring.
  - split; [intros; exfalso; lra|]. split; [intros; exfalso; lra|]. intros _ _.
    cbn. split; [reflexivity|]. split; [reflexivity|].
    assert (Hn1 : vdot nn nn = 1) by exact Hnu. assert (Hd1 : vdot (p_dir p) (p_dir p) = 1) by exact Hu.
    assert (Hb1 : forall v, vdot (vplus (p_dir p) (vscale (-2 * ct) nn)) v = vdot (p_dir p) v - 2 * ct * vdot nn v)
      by (intros; unfold vdot, vplus, vscale; cbn; ring).
    assert (Hs1 : forall v w, vdot v w = vdot w v) by (intros; unfold vdot; ring).
    split; [|split].
    + unfold is_unit. rewrite Hb1, (Hs1 (p_dir p)), (Hs1 nn), !Hb1, Hd1, Hn1, (Hs1 nn (p_dir p)). fold ct. ring.
    + rewrite Hb1, Hn1. fold ct. ring.
    + intros t Ht. rewrite Hb1, (Hs1 nn), Ht. ring.
Qed.
(** entering *)
Lemma barrier_entering mat (p p' : Particle R) Es c :
  surface_binding_energy mat p = Ok p' ->
  in_barrier mat (p_pos_old p) = Ok false -> in_barrier mat (p_pos p) = Ok true ->
  actual_surface_binding_energy mat p (vx (p_pos_old p)) (vy (p_pos_old p)) (vz (p_pos_old p)) = Ok Es ->
  mat_closest_point mat (vx (p_pos p)) (vy (p_pos p)) (vz (p_pos p)) = Ok (vx c, vy c, vz c) ->
  p_pos p <> c -> is_unit (p_dir p) -> 0 < p_E p -> 0 <= Es ->
  let n := vtoward (p_pos p) c in
  (p_backreflected p = true -> p' = set_p_backreflected false p) /\
  (p_backreflected p = false ->
     p_E p' = p_E p + Es /\ p_backreflected p' = false /\ is_unit (p_dir p') /\
     (if isotropic (mat_surface_binding_model mat) then p_dir p' = p_dir p
      else (forall t, vdot t n = 0 -> sqrt (p_E p') * vdot (p_dir p') t = sqrt (p_E p) * vdot (p_dir p) t) /\
           sqrt (p_E p') * vdot (p_dir p') n = sqrt (p_E p * (vdot (p_dir p) n * vdot (p_dir p) n) + Es))).
Proof.
  intros H Hbef Hnow HEs Hc Hne Hu HE HEs0. cbv zeta.
  apply surface_inv in H. destruct H as (Es' & now & before & HEs' & Hn & Hb & Hm).
  rewrite HEs in HEs'. injection HEs'; intros <-.
  rewrite Hnow in Hn. injection Hn; intros <-. rewrite Hbef in Hb. injection Hb; intros <-.
  destruct (p_backreflected p) eqn:Hbr; (split; [|]); intros E0; try discriminate E0; [exact Hm|].
  destruct Hm as (c' & Hc' & ->). rewrite Hc in Hc'.
  assert (c' = c) by (destruct c, c'; cbn in Hc'; congruence). subst c'.
  pose proof (vtoward_unit _ _ Hne) as Hnu.
  set (nn := vtoward (p_pos p) c) in *.
  destruct (isotropic (mat_surface_binding_model mat)).
  - cbn. repeat split; auto.
  - rewrite surface_refraction_value. cbn [p_E p_dir p_backreflected set_p_E set_p_dir].
    assert (Hq : 0 <= p_E p * (vdot (p_dir p) nn * vdot (p_dir p) nn) + Es).
    { pose proof (Rle_0_sqr (vdot (p_dir p) nn)) as Hs. unfold Rsqr in Hs. nra. }
    assert (Hpos : 0 < p_E p + Es) by lra.
    destruct (refraction_facts _ _ _ _ Hnu Hu (Rlt_le _ _ HE) Hpos Hq) as (R1 & R2 & R3 & _).
    split; [reflexivity|]. split; [exact Hbr|]. split; [exact R1|]. split; [exact R2|exact R3].
Qed.
Lemma barrier_uncrossed mat (p p' : Particle R) b :
  surface_binding_energy mat p = Ok p' ->
  in_barrier mat (p_pos_old p) = Ok b -> in_barrier mat (p_pos p) = Ok b -> p' = p.
Proof.
  intros H Hbef Hnow. apply surface_inv in H. destruct H as (Es' & now & before & HEs' & Hn & Hb & Hm).
  rewrite Hnow in Hn. injection Hn; intros <-. rewrite Hbef in Hb. injection Hb; intros <-.
  destruct b; exact Hm.
Qed.

(** ** after a reflection *)
Lemma reflected_next_step build (mat : Material R) options p particles rng n p1 particles1 n1 rng' m p2 particles2 n2 particles0 :
  active p -> p_backreflected p = false ->
  bca_step build mat options p particles rng n = Ok ((p1, particles1), n1) ->
  p_backreflected p1 = true -> 
  bca_step build mat options p1 particles0 rng' m = Ok ((p2, particles2), n2) ->
  exists c path,
    mat_closest_point mat (vx (p_pos p1)) (vy (p_pos p1)) (vz (p_pos p1)) = Ok (vx c, vy c, vz c) /\
    let n := vtoward (p_pos p1) c in
    vminus (p_pos p2) (p_pos p1) = vscale path (p_dir_old p1) /\
    vdot (p_dir_old p1) n < 0 /\ (is_unit n -> 0 < vdot (p_dir p1) n).
Proof.
  intros Ha Hbr H Hbr1 H2.
  apply step_dir_old in H; [|exact Ha]. destruct H as (q & Haq & Hdo & Hp & Hpq & Hbq & _ & Hb).
  destruct (boundary_cases _ _ _ Haq Hb) as [(Ha1 & Hs & _)|(_ & _ & _ & Hx & _)]; [|congruence].
  pose proof (surface_inv _ _ _ Hs) as (Es & now & before & _ & Hn & Hbf & Hm).
  assert (Hq : p_backreflected q = false) by congruence.
  destruct before, now; [exfalso; congruence| |rewrite Hq in Hm|exfalso; congruence].
  - cbv zeta in Hm. destruct Hm as (c & Hc & Hm).
    apply step_displacement in H2; [|exact Ha1].
    destruct H2 as (p0 & bcgs & k & bcg0 & _ & _ & Hmove & _).
    destruct Hm as [(_ & ->)|[(_ & _ & ->)|(Hct & _ & E)]];
      [exfalso; congruence|exfalso; destruct (isotropic _); [|rewrite surface_refraction_value in Hbr1]; cbn in Hbr1; congruence|].
    rewrite Hp in Hc, Hct. rewrite Hp in E.
    exists c. eexists. split; [exact Hc|]. cbv zeta. split.
    + rewrite Hmove. instantiate (1 := bcg_mfp bcg0 + p_asymptotic_deflection p1 - p_asymptotic_deflection p2).
      unfold vminus, vplus, vscale. cbn [vx vy vz]. f_equal; ring.
    + rewrite Hdo. split; [exact Hct|]. intros Hnu.
      rewrite (f_equal p_dir E). cbn [p_dir set_p_backreflected set_p_dir].
      assert (Hn1 : vdot (vtoward (p_pos p1) c) (vtoward (p_pos p1) c) = 1) by exact Hnu.
      set (nn := vtoward (p_pos p1) c) in *.
      replace (vdot (vplus (p_dir q) (vscale (-2 * vdot (p_dir q) nn) nn)) nn)
        with (vdot (p_dir q) nn - 2 * vdot (p_dir q) nn * vdot nn nn)
        by (unfold vdot, vplus, vscale; cbn; ring).
      rewrite Hn1. lra.
  - destruct Hm as (c & _ & E). exfalso. rewrite E in Hbr1.
    destruct (isotropic _); [|rewrite surface_refraction_value in Hbr1]; cbn in Hbr1; congruence.
Qed.
