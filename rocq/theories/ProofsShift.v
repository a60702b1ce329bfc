(** * ProofsShift.v - translation symmetry of a simulation. *)
From Coq Require Import ZArith List Bool Reals Lra.
From Verif Require Import Num NumR ModelTypes ModelConsts ModelParticle ModelGeometry ModelMaterial ModelInteractions ModelBca.
From Verif Require Import SpecTwo SpecShift ProofsTwo.
Import ListNotations.
Open Scope R_scope.

Lemma particle_ext {F} (p q : Particle F) :
  p_m p = p_m q -> p_Z p = p_Z q -> p_E p = p_E q -> p_Ec p = p_Ec q ->
  p_Es p = p_Es q -> p_Ed p = p_Ed q -> p_pos p = p_pos q -> p_dir p = p_dir q ->
  p_pos_old p = p_pos_old q -> p_dir_old p = p_dir_old q -> p_pos_origin p = p_pos_origin q -> p_energy_origin p = p_energy_origin q ->
  p_asymptotic_deflection p = p_asymptotic_deflection q -> p_stopped p = p_stopped q -> p_left p = p_left q -> p_incident p = p_incident q ->
  p_first_step p = p_first_step q -> p_trajectory p = p_trajectory q -> p_energies p = p_energies q -> p_track_trajectories p = p_track_trajectories q ->
  p_number_collision_events p = p_number_collision_events q -> p_backreflected p = p_backreflected q -> p_interaction_index p = p_interaction_index q -> p_weight p = p_weight q ->
  p_tag p = p_tag q -> p_tracked_vector p = p_tracked_vector q -> p = q.
Proof. destruct p, q. cbn. intros. subst. reflexivity. Qed.

Section Shift.
  Context (t : Vector R) (mat : Material R) (o : Options R).
  Context (SY : symmetric_along t (mat_geometry mat)) (UZ : uniform_in_z (mat_geometry mat)).
  Notation sh := (shift t).
  Let rel (p q : Particle R) : Prop := q = sh p.
  Let srel (ps qs : list (Particle R)) : Prop := qs = map sh ps.

  Lemma sh_tracker p : update_trajectory_tracker (sh p) = sh (update_trajectory_tracker p).
  Proof.
    unfold update_trajectory_tracker. cbn [p_track_trajectories shift].
    destruct (p_track_trajectories p); [|reflexivity].
    unfold shift, set_p_trajectory; cbn -[Rplus]. rewrite map_app. reflexivity.
  Qed.
  Lemma sh_losses a b p : update_energy_loss_tracker o a b (sh p) = sh (update_energy_loss_tracker o a b p).
  Proof.
    unfold update_energy_loss_tracker. cbn [p_incident shift].
    destruct (p_incident p && _); [|reflexivity].
    unfold shift, set_p_energies; cbn -[Rplus]. rewrite map_app. reflexivity.
  Qed.
  Lemma sh_rotate a b p : rotate a b (sh p) = sh (rotate a b p).
  Proof. reflexivity. Qed.
  Lemma sh_refraction n Es p : surface_refraction n Es (sh p) = sh (surface_refraction n Es p).
  Proof. reflexivity. Qed.
  Lemma sh_advance a b p : advance a b (sh p) = (sh (fst (advance a b p)), snd (advance a b p)).
  Proof.
    unfold advance. cbn [p_E p_Ec shift]. rewrite sh_tracker.
    set (p' := if nlt (p_Ec p) (p_E p) then update_trajectory_tracker p else p).
    replace (if nlt (p_Ec p) (p_E p) then sh (update_trajectory_tracker p) else sh p) with (sh p')
      by (unfold p'; destruct (nlt _ _); reflexivity).
    clearbody p'. cbv zeta. cbn [fst snd]. f_equal.
    apply particle_ext; try reflexivity.
    - cbn [p_pos shift vshift set_p_dir_old set_p_asymptotic_deflection set_p_pos set_p_pos_old p_pos_old p_dir_old p_asymptotic_deflection vx vy vz p_dir].
      unfold vshift. cbn [vx vy vz]. f_equal; toR; ring.
  Qed.

  Lemma sh_stopping p mode :
    electronic_stopping_cross_sections mat (sh p) mode = electronic_stopping_cross_sections mat p mode.
  Proof.
    unfold electronic_stopping_cross_sections, electronic_stopping_correction_factor, number_densities.
    cbn [p_E p_m p_Z p_pos shift vshift vx vy vz].
    set (x := vx (p_pos p)). set (y := vy (p_pos p)).
    destruct (UZ (x + vx t) (y + vy t) (y + vy t) (0 + vz t)) as [-> ->].
    rewrite (sym_ck _ _ SY), (sym_densities _ _ SY).
    destruct (UZ x y 0 y) as [-> ->]. reflexivity.
  Qed.

  Lemma sh_total x y z : total_number_density mat (x + vx t) (y + vy t) (z + vz t) = total_number_density mat x y z.
  Proof. unfold total_number_density. rewrite (sym_densities _ _ SY). reflexivity. Qed.
  Lemma sh_numbers x y z : number_densities mat (x + vx t) (y + vy t) (z + vz t) = number_densities mat x y z.
  Proof. unfold number_densities. rewrite (sym_densities _ _ SY). reflexivity. Qed.
  Lemma sh_inside x y z : mat_inside mat (x + vx t) (y + vy t) (z + vz t) = mat_inside mat x y z.
  Proof. exact (sym_inside _ _ SY x y z). Qed.
  Lemma sh_barrier x y z : mat_inside_energy_barrier mat (x + vx t) (y + vy t) (z + vz t) = mat_inside_energy_barrier mat x y z.
  Proof. exact (sym_barrier _ _ SY x y z). Qed.
  Lemma sh_simulation x y z :
    mat_inside_simulation_boundary mat (x + vx t) (y + vy t) (z + vz t) = mat_inside_simulation_boundary mat x y z.
  Proof. exact (sym_boundary _ _ SY x y z). Qed.
  Lemma sh_bulk x y z : average_bulk_binding_energy mat (x + vx t) (y + vy t) (z + vz t) = average_bulk_binding_energy mat x y z.
  Proof. unfold average_bulk_binding_energy. rewrite (sym_concentrations _ _ SY). reflexivity. Qed.

  Lemma sh_electronic p d x0 z i :
    agree (fun a b => b = (sh (fst a), snd a))
      (subtract_electronic_stopping_energy mat o p d x0 z i)
      (subtract_electronic_stopping_energy mat o (sh p) d x0 z i).
  Proof.
    assert (L : electronic_loss mat o (sh p) d x0 z i = electronic_loss mat o p d x0 z i).
    { unfold electronic_loss. rewrite sh_stopping.
      cbn [p_pos p_Z p_interaction_index shift vshift vx vy vz]. rewrite sh_numbers. reflexivity. }
    unfold subtract_electronic_stopping_energy. rewrite L.
    cbn [p_E p_pos shift vshift vx vy vz]. rewrite sh_inside.
    apply agree_bind with (R := eq); [apply agree_eq; reflexivity|]. intros [] [] _.
    destruct (mat_inside _ _ _ _); [|reflexivity].
    apply agree_bind with (R := eq); [apply agree_eq; reflexivity|]. intros e ? <-.
    apply agree_bind with (R := eq); [apply agree_eq; reflexivity|]. intros [] [] _.
    cbn [agree fst snd]. destruct (nlt _ _); reflexivity.
  Qed.

  Lemma sh_surface p : agree rel (surface_binding_energy mat p) (surface_binding_energy mat (sh p)).
  Proof.
    unfold surface_binding_energy.
    assert (HE : forall x y z, actual_surface_binding_energy mat (sh p) (x + vx t) (y + vy t) (z + vz t)
                               = actual_surface_binding_energy mat p x y z)
      by (intros; unfold actual_surface_binding_energy; rewrite (sym_concentrations _ _ SY); reflexivity).
    cbn [p_E p_dir p_pos p_pos_old p_backreflected shift vshift vx vy vz].
    rewrite HE, !sh_barrier.
    apply agree_bind with (R := eq); [apply agree_eq; reflexivity|]. intros Es ? <-.
    apply agree_bind with (R := eq); [apply agree_eq; reflexivity|]. intros b1 ? <-.
    apply agree_bind with (R := eq); [apply agree_eq; reflexivity|]. intros b2 ? <-.
    unfold mat_closest_point. rewrite (sym_closest _ _ SY).
    set (c := g_closest_point _ _ _ _).
    assert (HC : agree (fun a b => b = (fst (fst a) + vx t, snd (fst a) + vy t, snd a + vz t)) c
                   (bind c (fun c => Ok (fst (fst c) + vx t, snd (fst c) + vy t, snd c + vz t))))
      by (destruct c; cbn; auto).
    assert (D : forall a b s : R, nsub (a + s) (b + s) = nsub a b) by (intros; toR; ring).
    destruct (b1 && negb b2).
    - destruct (p_backreflected p); [reflexivity|].
      eapply agree_bind; [exact HC|]. intros [[x2 y2] z2] q ->. cbn [fst snd]. rewrite !D.
      cbn [agree]. unfold rel. destruct (mat_surface_binding_model mat); reflexivity.
    - destruct (negb b1 && b2); [|reflexivity].
      eapply agree_bind; [exact HC|]. intros [[x2 y2] z2] q ->. cbn [fst snd]. rewrite !D.
      destruct (nlt _ (nZ 0)); [|reflexivity].
      destruct (nlt Es _); cbn [agree]; unfold rel; [destruct (mat_surface_binding_model mat)|]; reflexivity.
  Qed.

  Lemma sh_boundary p : agree rel (boundary_condition_planar mat p) (boundary_condition_planar mat (sh p)).
  Proof.
    unfold boundary_condition_planar. cbn [p_E p_Ec p_pos shift vshift vx vy vz].
    rewrite sh_simulation, sh_barrier.
    change (set_p_left true (sh p)) with (sh (set_p_left true p)). rewrite sh_tracker.
    set (p1 := if negb _ then update_trajectory_tracker (set_p_left true p) else p).
    set (q1 := if negb _ then sh (update_trajectory_tracker (set_p_left true p)) else sh p).
    assert (Hq : q1 = sh p1) by (unfold q1, p1; destruct (negb _); reflexivity).
    clearbody q1. subst q1.
    clearbody p1.
    apply agree_bind with (R := eq); [apply agree_eq; reflexivity|]. intros b ? <-.
    change (set_p_stopped true (sh p1)) with (sh (set_p_stopped true p1)). rewrite sh_tracker.
    cbn [p_left shift].
    set (p2 := if _ && b then update_trajectory_tracker (set_p_stopped true p1) else p1).
    replace (if _ && b then sh (update_trajectory_tracker (set_p_stopped true p1)) else sh p1) with (sh p2)
      by (unfold p2; destruct (_ && b); reflexivity).
    clearbody p2. cbn [p_left p_stopped shift].
    destruct (negb _ && negb _); [|reflexivity]. apply sh_surface.
  Qed.

  Lemma sh_keep p q : keep_recoil mat o (sh p) (sh q) = keep_recoil mat o p q.
  Proof.
    unfold keep_recoil. cbn [p_E p_Ec p_Z p_m p_pos shift vshift vx vy vz].
    rewrite sh_total. unfold mat_closest_point. rewrite (sym_closest _ _ SY).
    destruct (_ && _); [|reflexivity].
    destruct (total_number_density _ _ _ _); try reflexivity. cbn [bind].
    destruct (g_closest_point _ _ _ _) as [[[x2 y2] z2]| |]; try reflexivity. cbn [bind fst snd].
    assert (D : forall a b s : R, nsub (a + s) (b + s) = nsub a b) by (intros; toR; ring).
    rewrite !D. reflexivity.
  Qed.

  Ltac step_eq := apply magree_bind with (R := eq); [apply magree_refl|]; intros ? ? <-.
  Lemma sh_geometry p :
    magree (fun a b => b = (sh (fst a), snd a))
      (determine_mfp_phi_impact_parameter mat o p) (determine_mfp_phi_impact_parameter mat o (sh p)).
  Proof.
    unfold determine_mfp_phi_impact_parameter, mat_mfp, average_mass, average_Z, electronic_stopping_correction_factor.
    rewrite sh_stopping.
    cbn [p_E p_Ec p_Z p_m p_pos p_first_step shift vshift vx vy vz].
    rewrite !sh_total, (sym_concentrations _ _ SY), (sym_ck _ _ SY), !sh_numbers.
    do 3 step_eq.
    destruct (o_high_energy_free_flight_paths o).
    - do 6 step_eq.
      match goal with |- context [if nlt ?a ?b then mbind _ _ else _] => destruct (nlt a b) end.
      + do 3 step_eq. apply magree_ret. destruct (p_first_step p); reflexivity.
      + do 3 step_eq. apply magree_ret. destruct (p_first_step p); reflexivity.
    - do 3 step_eq. apply magree_ret. destruct (p_first_step p); reflexivity.
  Qed.

  Lemma sh_recoil_position pos dir bcg : recoil_position (vshift t pos) dir bcg = vshift t (recoil_position pos dir bcg).
  Proof. unfold recoil_position, vshift. cbn [vx vy vz]. f_equal; toR; ring. Qed.

  Lemma sh_partner p bcg :
    magree (fun a b => b = (fst a, sh (snd a)))
      (choose_collision_partner mat o p bcg) (choose_collision_partner mat o (sh p) bcg).
  Proof.
    unfold choose_collision_partner, choose, choose_with, get_cumulative_concentrations.
    cbn [p_pos p_dir shift]. rewrite sh_recoil_position.
    set (r := recoil_position _ _ _). cbn [vshift vx vy vz]. rewrite (sym_concentrations _ _ SY).
    step_eq. apply magree_ret. reflexivity.
  Qed.

  Definition shift_cs (a : CollisionState R) : CollisionState R :=
    mkCS (sh (cs_particle_1 a)) (map sh (cs_particles a)) (cs_total_energy_lost_to_recoils a)
      (cs_total_asymptotic_deflection a) (cs_normalized_distance_of_closest_approach a)
      (cs_strong_collision_Z a) (cs_strong_collision_index a).

  Lemma sh_collision build k bcg a :
    magree (fun a b => b = shift_cs a) (collision_step build mat o k bcg a) (collision_step build mat o k bcg (shift_cs a)).
  Proof.
    unfold collision_step. cbn [cs_particle_1 cs_particles cs_total_energy_lost_to_recoils cs_total_asymptotic_deflection
      cs_normalized_distance_of_closest_approach cs_strong_collision_Z cs_strong_collision_index shift_cs].
    eapply magree_bind; [apply sh_partner|]. intros [i p2] ? ->. cbn [fst snd].
    set (p1 := cs_particle_1 a).
    change (calculate_binary_collision build (sh p1) (sh p2) bcg o) with (calculate_binary_collision build p1 p2 bcg o).
    cbn [p_pos shift vshift vx vy vz]. rewrite sh_barrier. step_eq. rewrite sh_inside.
    destruct (mat_inside _ _ _ _ && _); [|apply magree_ret; reflexivity].
    step_eq. rewrite sh_bulk. step_eq.
    match goal with |- magree _ (mbind (mlift (keep_recoil mat o ?x ?y)) _) _ => set (P1 := x); set (P2 := y) end.
    match goal with |- magree _ _ (mbind (mlift (keep_recoil mat o ?x ?y)) _) =>
      replace x with (sh P1); [replace y with (sh P2)|] end.
    2: { unfold P2. reflexivity. }
    2: { unfold P1. destruct (_ && _); reflexivity. }
    rewrite sh_keep. apply magree_bind with (R := eq); [apply magree_refl|]; intros keep ? <-.
    apply magree_ret. destruct keep; reflexivity.
  Qed.
  Lemma sh_collisions build bcgs : forall k a,
    magree (fun a b => b = shift_cs a) (collision_loop build mat o k bcgs a) (collision_loop build mat o k bcgs (shift_cs a)).
  Proof.
    induction bcgs as [|bcg bcgs IH]; intros k a; cbn [collision_loop].
    - apply magree_ret. reflexivity.
    - eapply magree_bind; [apply sh_collision|]. intros x ? ->. apply IH.
  Qed.

  Lemma sh_step build p ps :
    magree (fun a b => b = (sh (fst a), map sh (snd a))) (bca_step build mat o p ps) (bca_step build mat o (sh p) (map sh ps)).
  Proof.
    unfold bca_step.
    eapply magree_bind; [apply sh_geometry|]. intros [p1 g] ? ->. cbn [fst snd].
    eapply magree_bind; [apply (sh_collisions _ _ _ (mkCS p1 ps _ _ _ _ _))|]. intros a ? ->.
    cbn [cs_particle_1 cs_particles cs_total_energy_lost_to_recoils cs_total_asymptotic_deflection
      cs_normalized_distance_of_closest_approach cs_strong_collision_Z cs_strong_collision_index shift_cs].
    step_eq. rewrite sh_advance. destruct (advance _ _ _) as [p2 d]. cbn [fst snd].
    eapply magree_bind; [apply magree_lift, sh_electronic|]. intros [p3 e] ? ->. cbn [fst snd].
    rewrite sh_losses.
    eapply magree_bind; [apply magree_lift, sh_boundary|]. unfold rel. intros p4 ? ->.
    apply magree_ret. reflexivity.
  Qed.

  Lemma sh_bca_loop build fuel : forall p ps i,
    magree (fun a b => b = (sh (fst (fst a)), map sh (snd (fst a)), snd a))
      (bca_loop build mat o fuel p ps i) (bca_loop build mat o fuel (sh p) (map sh ps) i).
  Proof.
    induction fuel as [|fuel IH]; intros p ps i; cbn [bca_loop]; [intros rng n; exact I|].
    cbn [p_stopped p_left shift]. destruct (negb _ && negb _).
    - eapply magree_bind; [apply sh_step|]. intros [p1 ps1] ? ->. cbn [fst snd]. rewrite map_length. apply IH.
    - apply magree_ret. reflexivity.
  Qed.

  Lemma sh_stack build fuel : forall ps out i,
    magree (fun a b => b = map sh a) (stack_loop build mat o fuel ps out i) (stack_loop build mat o fuel (map sh ps) (map sh out) i).
  Proof.
    induction fuel as [|fuel IH]; intros ps out i; [intros rng n; exact I|].
    cbn [stack_loop]. destruct i as [|i]; [apply magree_ret; reflexivity|].
    destruct ps as [|p ps]; [intros rng n; reflexivity|]. cbn [map].
    eapply magree_bind; [apply (sh_bca_loop build (S fuel))|]. intros [[p1 ps1] i1] ? ->. cbn [fst snd].
    replace (map sh out ++ [sh p1]) with (map sh (out ++ [p1])) by (rewrite map_app; reflexivity). apply IH.
  Qed.

  Lemma sh_single build fuel p :
    magree (fun a b => b = map sh a) (single_ion_bca build mat o fuel p) (single_ion_bca build mat o fuel (sh p)).
  Proof. exact (sh_stack build fuel [p] [] 1%nat). Qed.
End Shift.

(** ** The code's geometries *)
Lemma mesh0d_symmetric (g : Mesh0D R) ty tz : symmetric_along (mkV 0 ty tz) (mesh0d_geometry g).
Proof.
  constructor; intros; cbn [mesh0d_geometry g_get_densities g_get_ck g_get_concentrations g_inside
    g_inside_simulation_boundary g_inside_energy_barrier g_closest_point vx vy vz bind fst snd];
    rewrite ?Rplus_0_r; reflexivity.
Qed.
Lemma mesh1d_symmetric (g : Mesh1D R) ty tz : symmetric_along (mkV 0 ty tz) (mesh1d_geometry g).
Proof.
  constructor; intros; cbn [mesh1d_geometry g_get_densities g_get_ck g_get_concentrations g_inside
    g_inside_simulation_boundary g_inside_energy_barrier g_closest_point vx vy vz bind fst snd];
    rewrite ?Rplus_0_r; try reflexivity.
  cbv zeta. destruct (nlt _ _); cbn [bind fst snd]; rewrite ?Rplus_0_r; reflexivity.
Qed.
Lemma mesh2d_symmetric (g : Mesh2D R) tz : symmetric_along (mkV 0 0 tz) (mesh2d_geometry g).
Proof.
  constructor; intros; cbn [mesh2d_geometry g_get_densities g_get_ck g_get_concentrations g_inside
    g_inside_simulation_boundary g_inside_energy_barrier g_closest_point vx vy vz bind fst snd];
    rewrite ?Rplus_0_r; try reflexivity.
  unfold polygon_closest. destruct (poly_closest_point _ _ _); cbn [bind fst snd]; rewrite ?Rplus_0_r; reflexivity.
Qed.
Lemma homogeneous2d_symmetric (g : HomogeneousMesh2D R) tz : symmetric_along (mkV 0 0 tz) (homogeneous2d_geometry g).
Proof.
  constructor; intros; cbn [homogeneous2d_geometry g_get_densities g_get_ck g_get_concentrations g_inside
    g_inside_simulation_boundary g_inside_energy_barrier g_closest_point vx vy vz bind fst snd];
    rewrite ?Rplus_0_r; try reflexivity.
  unfold polygon_closest. destruct (poly_closest_point _ _ _); cbn [bind fst snd]; rewrite ?Rplus_0_r; reflexivity.
Qed.

Section Uniform.
  Context {F : Type} {NF : Num F}.
  Lemma mesh0d_uniform (g : Mesh0D F) : uniform_in_z (mesh0d_geometry g).
  Proof. split; reflexivity. Qed.
  Lemma mesh1d_uniform (g : Mesh1D F) : uniform_in_z (mesh1d_geometry g).
  Proof. split; reflexivity. Qed.
  Lemma mesh2d_uniform (g : Mesh2D F) : uniform_in_z (mesh2d_geometry g).
  Proof. split; reflexivity. Qed.
  Lemma homogeneous2d_uniform (g : HomogeneousMesh2D F) : uniform_in_z (homogeneous2d_geometry g).
  Proof. split; reflexivity. Qed.
  Lemma sphere_uniform (g : Sphere F) : uniform_in_z (sphere_geometry g).
  Proof. split; reflexivity. Qed.
  Lemma ball_uniform (g : ParryBall F) : uniform_in_z (parryball_geometry g).
  Proof. split; reflexivity. Qed.
  Lemma trimesh_uniform (g : ParryTriMesh F) : uniform_in_z (parrytrimesh_geometry g).
  Proof. split; reflexivity. Qed.
End Uniform.
