(** * ProofsPanic.v - which panics one step of the loop can raise *)
From Coq Require Import ZArith List Bool Lia.
From Verif Require Import Num ModelTypes ModelConsts ModelParticle ModelInteractions ModelGeometry
  ModelMaterial ModelBca Spec ProofsBase ProofsBca.
Import ListNotations.
Open Scope nat_scope.

Section Panic.
  Context {F : Type} {NF : Num F}.

  (** a result that is not the failure of popping an empty stack *)
  Definition sound {A} (r : Res A) : Prop := r <> Panic UnwrapNone.
  Definition msound {A} (m : M F A) : Prop := forall rng n, m rng n <> Panic UnwrapNone.

  Lemma sound_ok {A} (a : A) : sound (Ok a). Proof. discriminate. Qed.
  Lemma sound_expl {A} : sound (A := A) (Panic ExplicitPanic). Proof. discriminate. Qed.
  Lemma sound_err {A} : sound (A := A) (Panic UnwrapErr). Proof. discriminate. Qed.
  Lemma sound_bind {A B} (m : Res A) (f : A -> Res B) :
    sound m -> (forall a, sound (f a)) -> sound (bind m f).
  Proof. intros Hm Hf. destruct m; simpl; [apply Hf|intros E; apply Hm; congruence|discriminate]. Qed.
  Lemma sound_idx {A} (l : list A) i : sound (idx l i).
  Proof. unfold sound, idx. destruct (nth_error l i); discriminate. Qed.
  Lemma sound_rassert b : sound (rassert b).
  Proof. unfold sound, rassert. destruct b; discriminate. Qed.
  Lemma sound_mapM {A B} (f : A -> Res B) l : (forall a, sound (f a)) -> sound (mapM f l).
  Proof. intros Hf. induction l; simpl; [apply sound_ok|]. apply sound_bind; [auto|]. intros. apply sound_bind; [auto|]. intros. apply sound_ok. Qed.
  Lemma msound_bind {A B} (m : M F A) (f : A -> M F B) :
    msound m -> (forall a, msound (f a)) -> msound (mbind m f).
  Proof.
    intros Hm Hf rng n. rewrite mbind_res. specialize (Hm rng n).
    destruct (m rng n) as [[a n']|k|]; [apply Hf|intros E; apply Hm; congruence|discriminate].
  Qed.
  Lemma msound_lift {A} (r : Res A) : sound r -> msound (mlift r).
  Proof. intros Hr rng n. unfold mlift. destruct r; [discriminate|intros E; apply Hr; congruence|discriminate]. Qed.
  Lemma msound_ret {A} (a : A) : msound (mret a). Proof. intros rng n. discriminate. Qed.
  Lemma msound_random : msound mrandom. Proof. intros rng n. discriminate. Qed.
  Lemma msound_randoms k : msound (mrandoms k).
  Proof. intros rng n. rewrite mrandoms_run. discriminate. Qed.

  Ltac snd :=
    repeat first
      [ assumption
      | match goal with H : forall _, _ |- _ => solve [apply H] end
      | match goal with
        | |- sound (Ok _) => apply sound_ok
        | |- sound (Panic _) => discriminate
        | |- sound (idx _ _) => apply sound_idx
        | |- sound (rassert _) => apply sound_rassert
        | |- sound (bind _ _) => apply sound_bind; [|intros]
        | |- sound (mapM _ _) => apply sound_mapM; intros
        | |- msound (mret _) => apply msound_ret
        | |- msound mrandom => apply msound_random
        | |- msound (mrandoms _) => apply msound_randoms
        | |- msound (mbind _ _) => apply msound_bind; [|intros]
        | |- msound (mlift _) => apply msound_lift
        | |- sound (if ?b then _ else _) => destruct b
        | |- msound (if ?b then _ else _) => destruct b
        | |- sound (match ?b with _ => _ end) => destruct b
        | |- msound (match ?b with _ => _ end) => destruct b
        | |- sound (let x := _ in _) => cbv zeta
        | |- msound (let x := _ in _) => cbv zeta
        end ].

  (** The geometry's own functions do not raise it; true of every geometry of
      the code (see [sound_geometry_*] below). *)
  Record sound_geometry (g : Geometry F) : Prop := {
    sg_d : forall x y z, sound (g_get_densities g x y z);
    sg_ck : forall x y z, sound (g_get_ck g x y z);
    sg_t : forall x y z, sound (g_get_total_density g x y z);
    sg_c : forall x y z, sound (g_get_concentrations g x y z);
    sg_b : forall x y z, sound (g_inside_energy_barrier g x y z);
    sg_p : forall x y z, sound (g_closest_point g x y z) }.

  Lemma phi_sound x ip : sound (phi x ip). Proof. unfold phi; snd. Qed.
  Lemma dphi_sound x ip : sound (dphi x ip). Proof. unfold dphi; snd. Qed.
  Lemma doca_sound r a Za Zb E p ip : sound (distance_of_closest_approach_function r a Za Zb E p ip).
  Proof.
    unfold distance_of_closest_approach_function, doca_tungsten_tungsten_cubic_spline, doca_function_transformed, doca_function.
    destruct ip; snd; apply phi_sound.
  Qed.
  Lemma ddoca_sound r a Za Zb E p ip : sound (diff_distance_of_closest_approach_function r a Za Zb E p ip).
  Proof.
    unfold diff_distance_of_closest_approach_function, diff_doca_function.
    destruct ip; snd; apply dphi_sound.
  Qed.
  Lemma newton_sound f df a tol k : (forall x, sound (f x)) -> (forall x, sound (df x)) ->
    forall x, sound (newton_loop f df a tol k x).
  Proof. intros Hf Hdf. induction k as [|k IH]; intros x; cbn [newton_loop]; snd. Qed.
  Lemma unwrap_sound {A} (r : Res (option A)) : sound r -> sound (unwrap_ok r).
  Proof. intros H. unfold unwrap_ok. snd. Qed.
  Lemma newton_root_sound Za Zb Ma Mb E p ip k tol : sound (newton_rootfinder Za Zb Ma Mb E p ip k tol).
  Proof. apply newton_sound; intros; [apply doca_sound|apply ddoca_sound]. Qed.
  Lemma distance_sound p1 p2 bcg options : sound (distance_of_closest_approach None p1 p2 bcg options).
  Proof.
    unfold distance_of_closest_approach, idx2.
    apply sound_bind; [snd|]. intros ip.
    assert (H : forall k tol, sound (unwrap_ok (newton_rootfinder (p_Z p1) (p_Z p2) (p_m p1) (p_m p2) (p_E p1) (bcg_impact_parameter bcg) ip k tol))).
    { intros. apply unwrap_sound, newton_root_sound. }
    destruct ip; snd.
  Qed.
  Lemma potential_sound r a Za Zb ip : sound (interaction_potential r a Za Zb ip).
  Proof. unfold interaction_potential, screened_coulomb. destruct ip; snd; apply phi_sound. Qed.
  Lemma angle_sound Za Zb Ma Mb E p x0 ip si : sound (scattering_angle Za Zb Ma Mb E p x0 ip si).
  Proof.
    unfold scattering_angle. destruct si.
    - unfold mendenhall_weller, scattering_integral_mw. snd; (apply phi_sound || apply dphi_sound).
    - unfold magic, magic_constants. snd; (apply phi_sound || apply dphi_sound).
    - unfold gauss_mehler, scattering_integral_gauss_mehler, scattering_function_gm. snd. apply potential_sound.
    - unfold gauss_legendre, scattering_integral_gauss_legendre, scattering_function_gl. snd. apply potential_sound.
  Qed.
  Lemma binary_sound p1 p2 bcg options : sound (calculate_binary_collision None p1 p2 bcg options).
  Proof. unfold calculate_binary_collision, idx2. snd; (apply distance_sound || apply angle_sound). Qed.

  Section Mat.
    Variables (mat : Material F) (options : Options F).
    Hypothesis Hg : sound_geometry (mat_geometry mat).
    Lemma total_sound x y z : sound (total_number_density mat x y z).
    Proof. unfold total_number_density. destruct Hg. snd. Qed.
    Lemma nd_sound x y z : sound (number_densities mat x y z).
    Proof. unfold number_densities. destruct Hg. snd. Qed.
    Lemma ck_sound x y z : sound (electronic_stopping_correction_factor mat x y z).
    Proof. unfold electronic_stopping_correction_factor. destruct Hg. snd. Qed.
    Lemma se_sound p mode : sound (electronic_stopping_cross_sections mat p mode).
    Proof. unfold electronic_stopping_cross_sections. snd; [apply ck_sound|apply nd_sound]. Qed.
    Lemma determine_sound p : msound (determine_mfp_phi_impact_parameter mat options p).
    Proof.
      unfold determine_mfp_phi_impact_parameter, mat_mfp, average_mass, average_Z, first_step_path, gaseous_factor.
      snd; (apply total_sound || apply nd_sound || apply ck_sound || apply se_sound || (destruct Hg; solve [snd])).
    Qed.
    Lemma partner_sound p bcg : msound (choose_collision_partner mat options p bcg).
    Proof.
      unfold choose_collision_partner, choose, choose_with, get_cumulative_concentrations.
      destruct Hg. snd.
    Qed.
    Lemma keep_sound p1 p2 : sound (keep_recoil mat options p1 p2).
    Proof. unfold keep_recoil, mat_closest_point. destruct Hg. snd. apply total_sound. Qed.
    Lemma collision_sound k bcg cs : msound (collision_step None mat options k bcg cs).
    Proof.
      unfold collision_step, mat_inside_energy_barrier, average_bulk_binding_energy.
      apply msound_bind; [apply partner_sound|]. intros [i p2].
      apply msound_bind; [apply msound_lift; destruct Hg; snd|]. intros b.
      destruct (_ && b); [|snd].
      apply msound_bind; [apply msound_lift, unwrap_sound, binary_sound|]. intros r.
      apply msound_bind; [apply msound_lift; destruct Hg; snd|]. intros e.
      apply msound_bind; [apply msound_lift, keep_sound|]. intros kp. snd.
    Qed.
    Lemma loop_sound bcgs : forall k cs, msound (collision_loop None mat options k bcgs cs).
    Proof.
      induction bcgs as [|b bcgs IH]; intros k cs; cbn [collision_loop]; [snd|].
      apply msound_bind; [apply collision_sound|]. intros. apply IH.
    Qed.
    Lemma subtract_sound p d x0 z i : sound (subtract_electronic_stopping_energy mat options p d x0 z i).
    Proof.
      unfold subtract_electronic_stopping_energy, electronic_loss, idx2.
      snd; (apply se_sound || apply nd_sound).
    Qed.
    Lemma boundary_sound p : sound (boundary_condition_planar mat p).
    Proof.
      unfold boundary_condition_planar, surface_binding_energy, actual_surface_binding_energy,
        mat_inside_energy_barrier, mat_closest_point.
      destruct Hg. snd.
    Qed.
    Lemma step_sound p particles : msound (bca_step None mat options p particles).
    Proof.
      unfold bca_step. apply msound_bind; [apply determine_sound|]. intros [p1 bcgs].
      apply msound_bind; [apply loop_sound|]. intros cs.
      apply msound_bind; [snd|]. intros b. destruct (advance _ _ _).
      apply msound_bind; [apply msound_lift, subtract_sound|]. intros [q l].
      apply msound_bind; [apply msound_lift, boundary_sound|]. intros. snd.
    Qed.
  End Mat.

  Lemma active_no_pop mat options fuel ion rng n :
    sound_geometry (mat_geometry mat) -> active ion ->
    single_ion_bca None mat options fuel ion rng n <> Panic UnwrapNone.
  Proof.
    intros Hg Ha. apply single_active_no_none; [|exact Ha].
    intros p particles rng' n'. apply step_sound. exact Hg.
  Qed.

  Lemma sound_segment s x y : sound (segment_distance s x y).
  Proof. unfold segment_distance. destruct s as [[[s0 s1] s2] s3]. snd. Qed.
  Lemma sound_segments ss x y : forall d, sound (segments_distance ss x y d).
  Proof. induction ss; intros; cbn [segments_distance]; [snd|]. apply sound_bind; [apply sound_segment|]. intros. apply IHss. Qed.
  Lemma sound_nearest cells x y : forall i d j, sound (mesh2d_nearest_loop cells i x y d j).
  Proof.
    induction cells; intros; cbn [mesh2d_nearest_loop]; [snd|].
    apply sound_bind; [apply sound_segments|]. intros. destruct (_ <! _); apply IHcells.
  Qed.
  Lemma sound_mesh0d g : sound_geometry (mesh0d_geometry g).
  Proof. constructor; intros; cbn [mesh0d_geometry g_get_densities g_get_ck g_get_total_density g_get_concentrations g_inside_energy_barrier g_closest_point]; snd. Qed.
  Lemma sound_mesh1d g : sound_geometry (mesh1d_geometry g).
  Proof.
    constructor; intros; cbn [mesh1d_geometry g_get_densities g_get_ck g_get_total_density g_get_concentrations g_inside_energy_barrier g_closest_point];
      unfold mesh1d_select; snd.
  Qed.
  Lemma sound_nearest_to (g : Mesh2D F) x y : sound (mesh2d_nearest_to g x y).
  Proof. unfold mesh2d_nearest_to. apply sound_bind; [apply sound_nearest|]. intros. snd. Qed.
  Lemma sound_mesh2d g : sound_geometry (mesh2d_geometry g).
  Proof.
    constructor; intros; cbn [mesh2d_geometry g_get_densities g_get_ck g_get_total_density g_get_concentrations g_inside_energy_barrier g_closest_point];
      unfold mesh2d_select, polygon_closest, triangle_distance_to; snd; (apply sound_nearest_to || apply sound_segments).
  Qed.
  Lemma sound_homogeneous2d g : sound_geometry (homogeneous2d_geometry g).
  Proof.
    constructor; intros; cbn [homogeneous2d_geometry g_get_densities g_get_ck g_get_total_density g_get_concentrations g_inside_energy_barrier g_closest_point];
      unfold polygon_closest; snd.
  Qed.
  Lemma sound_sphere g : sound_geometry (sphere_geometry g).
  Proof. constructor; intros; cbn [sphere_geometry g_get_densities g_get_ck g_get_total_density g_get_concentrations g_inside_energy_barrier g_closest_point]; snd. Qed.
  Lemma sound_parryball g : sound_geometry (parryball_geometry g).
  Proof. constructor; intros; cbn [parryball_geometry g_get_densities g_get_ck g_get_total_density g_get_concentrations g_inside_energy_barrier g_closest_point]; snd. Qed.
  Lemma sound_parrytrimesh g : sound_geometry (parrytrimesh_geometry g).
  Proof. constructor; intros; cbn [parrytrimesh_geometry g_get_densities g_get_ck g_get_total_density g_get_concentrations g_inside_energy_barrier g_closest_point]; snd. Qed.

  (** the geometries the code can build *)
  Definition built_in (g : Geometry F) : Prop :=
    (exists m, g = mesh0d_geometry m) \/ (exists m, g = mesh1d_geometry m) \/ (exists m, g = mesh2d_geometry m) \/
    (exists m, g = homogeneous2d_geometry m) \/ (exists m, g = sphere_geometry m) \/
    (exists m, g = parryball_geometry m) \/ (exists m, g = parrytrimesh_geometry m).
  Lemma built_in_no_pop mat options fuel ion rng n :
    built_in (mat_geometry mat) -> active ion ->
    single_ion_bca None mat options fuel ion rng n <> Panic UnwrapNone.
  Proof.
    intros Hb. apply active_no_pop.
    destruct Hb as [[m ->]|[[m ->]|[[m ->]|[[m ->]|[[m ->]|[[m ->]|[m ->]]]]]]];
      auto using sound_mesh0d, sound_mesh1d, sound_mesh2d, sound_homogeneous2d, sound_sphere, sound_parryball, sound_parrytrimesh.
  Qed.
End Panic.
