(** * ProofsPush.v - which way a collision deflects the two particles (exact arithmetic) *)
From Coq Require Import ZArith List Bool Reals Lra Lia.
From Verif Require Import Num NumR ModelTypes ModelConsts ModelParticle ModelInteractions ModelGeometry
  ModelMaterial ModelBca Spec SpecR ProofsBase ProofsBca ProofsStep ProofsKinematics ProofsCollision ProofsLoss.
Import ListNotations.
Open Scope R_scope.

(** the partner as seen from the end of the free path *)
Definition offset_of (pos dir : Vector R) (bcg : BinaryCollisionGeometry R) : Vector R :=
  vminus (recoil_position pos dir bcg) (vplus pos (vscale (bcg_mfp bcg) dir)).
Lemma offset_dots pos d bcg psi :
  is_unit d -> off_axis d ->
  let p := bcg_impact_parameter bcg in let phi := bcg_phi_azimuthal bcg in
  let e := p * cos phi * vx d * vz d in
  let i := / sqrt (1 - vx d * vx d) in
  0 < i /\ i * i * (1 - vx d * vx d) = 1 /\
  vdot (offset_of pos d bcg) d = - 2 * e * vz d * i /\
  vdot (offset_of pos d bcg) (rotate_dir d psi phi) =
    cos psi * (- 2 * e * vz d * i) + sin psi * (- p + 2 * e * (i * i) * (sin phi * vy d + cos phi * vx d * vz d)).
Proof.
  intros Hu Hx p phi e i. rewrite rotate_dir_raw by assumption.
  unfold offset_of, recoil_position, raw_rotate, is_unit, off_axis, vdot, vminus, vplus, vscale in *.
  destruct bcg as [phi0 p0 mfp]. destruct d as [x y z], pos as [u v w].
  cbn [vx vy vz bcg_impact_parameter bcg_mfp bcg_phi_azimuthal] in *. toR.
  assert (Hx2 : 0 < 1 - x * x) by (apply Rabs_def2 in Hx; nra).
  pose proof (sqrt_lt_R0 _ Hx2) as Ha. pose proof (sqrt_sqrt (1 - x * x) (Rlt_le _ _ Hx2)) as Ha2.
  unfold i, e, Rdiv. pose proof (Rinv_0_lt_compat _ Ha) as Hi0.
  set (a := sqrt (1 - x * x)) in *. assert (Hi : a * / a = 1) by (field; lra).
  unfold p, phi. pose proof (sc1 psi) as Hp. pose proof (sc1 phi0) as Hf.
  set (s := sin psi) in *. set (c := cos psi) in *. set (sf := sin phi0) in *. set (cf := cos phi0) in *.
  clear p phi e i. set (i := / a) in *. clearbody a i s c sf cf.
  split; [exact Hi0|]. split; [rewrite <- Ha2; transitivity ((a * i) * (a * i)); [ring|rewrite Hi; ring]|].
  assert (Hyz : y * y = a * a - z * z) by lra.
  assert (E1 : (u + mfp * x - p0 * cf * a - (u + mfp * x)) * x +
    (v + mfp * y - p0 * (sf * z - cf * y * x) * i - (v + mfp * y)) * y +
    (w + mfp * z + p0 * (sf * y - cf * x * z) * i - (w + mfp * z)) * z = -2 * (p0 * cf * x * z) * z * i).
  { transitivity (p0 * cf * x * (i * (y * y) - a - i * (z * z))); [ring|]. rewrite Hyz.
    transitivity (p0 * cf * x * (a * (a * i) - a - 2 * (i * (z * z)))); [ring|]. rewrite Hi. ring. }
  split; [exact E1|].
  match goal with |- ?X * (c * x + s * cf * a) + ?Y * ?Y2 + ?Z * ?Z2 = _ =>
    transitivity (c * (X * x + Y * y + Z * z) + s * (X * (cf * a) + Y * (- (i * (cf * x * y - sf * z))) + Z * (- (i * (cf * x * z + sf * y)))));
    [ring|] end.
  rewrite E1. f_equal. f_equal.
  transitivity (- p0 * (cf * cf * (a * a) + (i * i) * ((cf * cf * (x * x) + sf * sf) * (y * y + z * z)))
     + 2 * (p0 * cf * x * z) * (i * i) * (sf * y + cf * x * z)); [ring|].
  replace (y * y + z * z) with (a * a) by lra.
  f_equal. transitivity (- p0 * (cf * cf * (a * a) + ((a * i) * (a * i)) * (cf * cf * (x * x) + sf * sf))); [ring|].
  rewrite Hi. rewrite Ha2. transitivity (- p0 * (sf * sf + cf * cf)); [ring|]. rewrite Hf. ring.
Qed.
(** psi and the recoil angle do not depend on the sign of the scattering angle *)
Lemma psi_sign Ma Mb E0 a x0 theta c : 0 < Ma -> 0 < Mb ->
  0 <= sin (bcr_psi (collision_kinematics Ma Mb E0 a x0 theta c)) /\
  0 <= sin (bcr_psi_recoil (collision_kinematics Ma Mb E0 a x0 theta c)) /\
  (sin theta <> 0 -> 0 < sin (bcr_psi (collision_kinematics Ma Mb E0 a x0 theta c)) /\
                     0 < sin (bcr_psi_recoil (collision_kinematics Ma Mb E0 a x0 theta c))).
Proof.
  intros Ha Hb. cbn [collision_kinematics bcr_psi bcr_psi_recoil].
  assert (G : forall y x, 0 <= sin (Rabs (Ratan2 y x)) /\ (y <> 0 -> 0 < sin (Rabs (Ratan2 y x)))).
  { intros y x. rewrite atan2_abs_gen. split.
    - pose proof (atan2_range (Rabs y) x (Rabs_pos y)) as [H1 H2]. apply sin_ge_0; assumption.
    - intros Hy. pose proof (Rabs_pos_lt _ Hy) as Hp.
      destruct (atan2_sin_cos (Rabs y) x) as (Hr & _ & _ & ->); [right; lra|]. apply Rdiv_lt_0_compat; assumption. }
  pose proof (G (sin theta) (Ma / Mb + cos theta)) as (G1 & G2). pose proof (G (sin theta) (1 - cos theta)) as (G3 & G4).
  toR. auto.
Qed.

(** ** one collision *)
Lemma collision_directions build (mat : Material R) options k bcg cs rng n cs' n' i p2 :
  is_unit (p_dir (cs_particle_1 cs)) -> off_axis (p_dir (cs_particle_1 cs)) ->
  0 < p_m (cs_particle_1 cs) -> Forall (fun m => 0 < m) (mat_m mat) ->
  choose_collision_partner mat options (cs_particle_1 cs) bcg rng n = Ok ((i, p2), n') ->
  collision_step build mat options k bcg cs rng n = Ok (cs', n') ->
  cs' = cs \/
  exists r sp spr,
    calculate_binary_collision build (cs_particle_1 cs) p2 bcg options = Ok (Some r) /\
    0 <= sp /\ 0 <= spr /\ (sin (bcr_theta r) <> 0 -> 0 < sp /\ 0 < spr) /\
    sp = sin (bcr_psi r) /\ spr = sin (bcr_psi_recoil r) /\
    p_dir (cs_particle_1 cs') = rotate_dir (p_dir (cs_particle_1 cs)) (bcr_psi r) (bcg_phi_azimuthal bcg) /\
    (cs_particles cs' = cs_particles cs \/
     exists p2', cs_particles cs' = p2' :: cs_particles cs /\
       p_dir p2' = rotate_dir (p_dir (cs_particle_1 cs)) (- bcr_psi_recoil r) (bcg_phi_azimuthal bcg)).
Proof.
  intros Hu Hx H1 Hm Hc H. apply collision_step_inv in H.
  destruct H as (i' & p2' & b & Hc' & _ & [(_ & ->)|(_ & r & bulk & keep & Hr & Hbulk & Hk & ->)]); [left; reflexivity|].
  rewrite Hc in Hc'. apply ok_inj in Hc'. injection Hc' as <- <-. right.
  pose proof (partner_inv _ _ _ _ _ _ _ _ _ Hc) as (_ & _ & Hdir & _ & _ & _ & Ha & _).
  rewrite normalize_unit in Hdir by exact Hu.
  assert (H2 : 0 < p_m p2). { rewrite Forall_forall in Hm. apply Hm. eapply nth_error_In. apply Ha. }
  exists r, (sin (bcr_psi r)), (sin (bcr_psi_recoil r)). split; [exact Hr|].
  apply cbc_kinematics in Hr. destruct Hr as (a & x0 & coul & Er).
  pose proof (psi_sign (p_m (cs_particle_1 cs)) (p_m p2) (p_E (cs_particle_1 cs)) a x0 (bcr_theta r) coul H1 H2) as (P1 & P2 & P3).
  rewrite <- Er in P1, P2, P3.
  split; [exact P1|]. split; [exact P2|]. split; [exact P3|]. split; [reflexivity|]. split; [reflexivity|].
  cbn [cs_particle_1 cs_particles]. split.
  - unfold projectile_after, rotate. destruct (_ && _); reflexivity.
  - destruct keep; [right|left; reflexivity]. eexists. split; [reflexivity|].
    unfold recoil_after, rotate. cbn. rewrite Hdir. reflexivity.
Qed.
