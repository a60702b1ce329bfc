(** * PropertiesTurn.v - C97, C98: turning and mirroring the ion *)
From Coq Require Import ZArith List Bool Lia Reals Lra Floats.SpecFloat.
From Verif Require Import Num NumR NumSF ModelTypes ModelConsts ModelParticle ModelGeometry ModelMaterial ModelInteractions ModelBca.
From Verif Require Import ProofsBase SpecTwo SpecShift ProofsTwo ProofsShift SpecTurn ProofsTurn ToyR ProofsRefute ToyRun ToyLoss ToyFlight ToyTurn.
Import ListNotations.
Open Scope R_scope.

Definition flat_target (mat : Material R) : Prop :=
  (exists g, mat_geometry mat = mesh0d_geometry g) \/ (exists g, mat_geometry mat = mesh1d_geometry g).
Lemma flat_under mat L : flat_target mat -> symmetric_under L anywhere (mat_geometry mat) /\ uniform_in_z (mat_geometry mat).
Proof. intros [(g & ->)|(g & ->)]; split; [apply mesh0d_under|apply mesh0d_uniform|apply mesh1d_under|apply mesh1d_uniform]. Qed.
Lemma turn_orthogonal a : orthogonal (turn_by a).
Proof. split; [|left; reflexivity]. cbn [turn_by m_cos m_sin]. pose proof (sin2_cos2 a) as H. unfold Rsqr in H. lra. Qed.

(** ** C97: a flat target has no preferred azimuth (exact arithmetic) *)
(** Turn the ion about the surface normal and repeat the simulation with the
    same random numbers: the same particles come back with every direction and
    every displacement turned; those of the ion are turned about the origin. *)
Theorem C97_turning_the_ion_partial :
  forall (build : Build R) (mat : Material R) options fuel (p : Particle R) rng n out n' angle,
    flat_target mat -> single_ion_bca build mat options fuel p rng n = Ok (out, n') ->
    exists out', single_ion_bca build mat options fuel (carried (turn_by angle) (0, 0) p) rng n = Ok (out', n') /\
      Forall2 (fun q q' => exists d, q' = carried (turn_by angle) d q /\ (p_incident q = true -> d = (0, 0))) out out'.
Proof.
  intros build mat o fuel p rng n out n' a HF HR. destruct (flat_under mat (turn_by a) HF) as (SY & UZ).
  destruct (T_single _ (turn_orthogonal a) mat o anywhere SY UZ I (or_introl (fun _ => I)) build fuel p rng n out n' HR)
    as (_ & f & out' & Hf & HQ & HB).
  exists out'. split.
  - apply HB. intros k _ _. unfold flipped. rewrite (Hf eq_refl k). reflexivity.
  - clear - HQ. induction HQ as [|q q' l l' (d & -> & _ & Hd) _ IH]; constructor; [|exact IH]. exists d. auto.
Qed.
Print Assumptions C97_turning_the_ion_partial.
(** a half turn carries the recoils along, too *)
Theorem C97_half_turn_partial :
  forall (build : Build R) (mat : Material R) options fuel (p : Particle R) rng n out n',
    flat_target mat -> single_ion_bca build mat options fuel p rng n = Ok (out, n') ->
    single_ion_bca build mat options fuel (carried (turn_by PI) (0, 0) p) rng n = Ok (map (carried (turn_by PI) (0, 0)) out, n').
Proof.
  intros build mat o fuel p rng n out n' HF HR. destruct (flat_under mat (turn_by PI) HF) as (SY & UZ).
  destruct (T_single _ (turn_orthogonal PI) mat o anywhere SY UZ I (or_introl (fun _ => I)) build fuel p rng n out n' HR)
    as (_ & f & out' & Hf & HQ & HB).
  replace (map (carried (turn_by PI) (0, 0)) out) with out'.
  - apply HB. intros k _ _. unfold flipped. rewrite (Hf eq_refl k). reflexivity.
  - clear - HQ. induction HQ as [|q q' l l' (d & -> & _ & Hd) _ IH]; [reflexivity|]. cbn [map]. rewrite IH, Hd; [reflexivity|].
    right. cbn [turn_by m_sin]. apply sin_PI.
Qed.
Print Assumptions C97_half_turn_partial.
(** The recoils' positions are not carried along (the sign in bca.rs 365): helium
    starting on the x axis at (0.6, 0.8, 0) knocks its first recoil out more than
    1 angstrom from the axis; at (0.6, 0, 0.8) and with the same random numbers,
    less than 0.8 angstrom. *)
Theorem C97_refuted_recoil_positions :
  let NS := series_num in
  pi_ux heavy_turned = pi_ux heavy /\ pi_uy heavy_turned = pi_uz heavy /\ pi_uz heavy_turned = pi_uy heavy /\
  pi_uz heavy = nZ 0 /\ pi_y heavy = nZ 0 /\ pi_z heavy = nZ 0 /\ pi_y heavy_turned = nZ 0 /\ pi_z heavy_turned = nZ 0 /\
  exists mesh ion ion' out out' n n' recoil recoil',
    mesh0d_new copper_input = Ok mesh /\ from_input heavy turn_options = Ok ion /\ from_input heavy_turned turn_options = Ok ion' /\
    single_ion_bca None (copper mesh) turn_options 30%nat ion (draws turn_draws) 0%nat = Ok (out, n) /\
    single_ion_bca None (copper mesh) turn_options 30%nat ion' (draws turn_draws) 0%nat = Ok (out', n') /\
    nth_error out 1%nat = Some recoil /\ nth_error out' 1%nat = Some recoil' /\ p_incident recoil = false /\ p_incident recoil' = false /\
    nlt (nmul (nZ 1) cANGSTROM) (vy (p_pos_origin recoil)) = true /\ nlt (vz (p_pos_origin recoil')) (nmul (nlit 8 (-1)) cANGSTROM) = true.
Proof.
  intros NS. do 8 (split; [reflexivity|]).
  destruct (run_with_inv _ _ _ _ _ _ upright_run) as (mesh & ion & out & n & Hm & Hi & Hr & Ht).
  destruct (run_with_inv _ _ _ _ _ _ turned_run) as (mesh' & ion' & out' & n' & Hm' & Hi' & Hr' & Ht').
  rewrite Hm in Hm'. injection Hm' as <-.
  apply origin_inv in Ht. destruct Ht as (p & Hp & Hp1 & Hp2 & _). apply origin_inv in Ht'. destruct Ht' as (q & Hq & Hq1 & _ & Hq2).
  exists mesh, ion, ion', out, out', n, n', p, q. repeat (split; [assumption|]). exact Hq2.
Qed.
Print Assumptions C97_refuted_recoil_positions.
Example C97_applies : flat_target (r_material 1 1) /\ carried (turn_by (PI / 2)) (0, 0) (r_ion 1 1 0 1) <> r_ion 1 1 0 1.
Proof.
  split; [left; exists (r_mesh 1); reflexivity|]. intros H. apply (f_equal (fun p => vz (p_dir p))) in H.
  unfold r_ion in H. cbn [p_dir carried turned turn_by m_cos m_sin m_sign vx vy vz] in H. rewrite cos_PI2, sin_PI2 in H. cbn in H. lra.
Qed.

(** ** C98: mirror images (exact arithmetic) *)
Inductive mirrored_target (mat : Material R) : LateralMap -> Prop :=
| mt_flat_y : flat_target mat -> mirrored_target mat mirror_y
| mt_flat_z : flat_target mat -> mirrored_target mat mirror_z
| mt_2d_z g : mat_geometry mat = mesh2d_geometry g -> mirrored_target mat mirror_z
| mt_homogeneous_z g : mat_geometry mat = homogeneous2d_geometry g -> mirrored_target mat mirror_z
| mt_sphere_y g : mat_geometry mat = sphere_geometry g -> mirrored_target mat mirror_y
| mt_sphere_z g : mat_geometry mat = sphere_geometry g -> mirrored_target mat mirror_z.
(** Every simulation has its mirror image: mirror the ion, replace some of the
    random numbers r by 1 - r, and all particles come back mirrored. *)
Theorem C98_mirror_images :
  forall (build : Build R) (mat : Material R) options fuel (p : Particle R) rng n out n' mirror,
    mirrored_target mat mirror -> single_ion_bca build mat options fuel p rng n = Ok (out, n') ->
    exists rng', (forall k, rng' k = rng k \/ rng' k = 1 - rng k) /\
      single_ion_bca build mat options fuel (carried mirror (0, 0) p) rng' n = Ok (map (carried mirror (0, 0)) out, n').
Proof.
  intros build mat o fuel p rng n out n' L HT HR.
  assert (HO : orthogonal L) by (destruct HT; split; cbn; try lra; right; reflexivity).
  assert (HS : m_sin L = 0) by (destruct HT; reflexivity).
  assert (HG : exists ok : R * R -> Prop, symmetric_under L ok (mat_geometry mat) /\ uniform_in_z (mat_geometry mat) /\ ok (0, 0)).
  { destruct HT as [HF|HF|g ->|g ->|g ->|g ->].
    - destruct (flat_under mat mirror_y HF) as (F1 & F2). exists anywhere. exact (conj F1 (conj F2 I)).
    - destruct (flat_under mat mirror_z HF) as (F1 & F2). exists anywhere. exact (conj F1 (conj F2 I)).
    - exists at_home. split; [apply mesh2d_under|split; [apply mesh2d_uniform|reflexivity]].
    - exists at_home. split; [apply homogeneous2d_under|split; [apply homogeneous2d_uniform|reflexivity]].
    - exists at_home. split; [apply sphere_under; exact HO|split; [apply sphere_uniform|reflexivity]].
    - exists at_home. split; [apply sphere_under; exact HO|split; [apply sphere_uniform|reflexivity]]. }
  destruct HG as (ok & SY & UZ & O0).
  destruct (T_single L HO mat o ok SY UZ O0 (or_intror HS) build fuel p rng n out n' HR) as (_ & f & out' & _ & HQ & HB).
  exists (flipped f rng). split; [intros k; unfold flipped; destruct (f k); auto|].
  replace (map (carried L (0, 0)) out) with out'.
  - apply HB. reflexivity.
  - clear - HQ HS. induction HQ as [|q q' l l' (d & -> & _ & Hd) _ IH]; [reflexivity|]. cbn [map]. rewrite IH, Hd; [reflexivity|]. right. exact HS.
Qed.
Print Assumptions C98_mirror_images.
Example C98_applies : mirrored_target (r_material 1 1) mirror_y /\ carried mirror_y (0, 0) (r_ion 1 1 0 1) <> r_ion 1 1 0 1 /\
  turned mirror_y (mkV 1 2 3) = mkV 1 (-2) 3 /\ turned mirror_z (mkV 1 2 3) = mkV 1 2 (-3).
Proof.
  split; [apply mt_flat_y; left; exists (r_mesh 1); reflexivity|]. split.
  - intros H. apply (f_equal (fun p => vy (p_dir p))) in H. cbn in H. lra.
  - unfold turned, mirror_y, mirror_z. cbn [m_cos m_sin m_sign vx vy vz]. split; f_equal; lra.
Qed.
