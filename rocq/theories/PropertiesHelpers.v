(** * PropertiesHelpers.v - C108: public helper functions *)
From Coq Require Import ZArith List Bool Reals Lra Lia.
From Verif Require Import Num NumR ModelTypes ModelConsts ModelParticle ModelGeometry ModelMaterial ModelOutput SpecR
  ProofsBase ProofsSampling ProofsGeometry.
Import ListNotations.
Open Scope R_scope.

(** The momentum points along the direction and has the length that belongs to
    the energy: p^2 = 2 m E. *)
Theorem C108_momentum :
  forall p : Particle R, is_unit (p_dir p) -> 0 < p_m p -> 0 <= p_E p ->
    vdot (get_momentum p) (get_momentum p) = 2 * p_m p * p_E p /\
    (exists s, 0 <= s /\ get_momentum p = vscale s (p_dir p)) /\
    (0 < p_E p -> 0 < vdot (get_momentum p) (p_dir p)).
Proof.
  intros p Hu Hm HE. unfold get_momentum. rewrite !nZ_R. toR.
  assert (H0 : 0 <= 2 * p_E p / p_m p) by (apply Rmult_le_pos; [lra|apply Rlt_le, Rinv_0_lt_compat, Hm]).
  pose proof (sqrt_sqrt _ H0) as Q. pose proof (sqrt_pos (2 * p_E p / p_m p)) as P.
  unfold is_unit, vdot in *. set (s := sqrt _) in *. cbn [vx vy vz].
  split; [|split].
  - replace (p_m p * s * vx (p_dir p) * (p_m p * s * vx (p_dir p)) + p_m p * s * vy (p_dir p) * (p_m p * s * vy (p_dir p)) +
             p_m p * s * vz (p_dir p) * (p_m p * s * vz (p_dir p)))
      with (p_m p * p_m p * (s * s) * (vx (p_dir p) * vx (p_dir p) + vy (p_dir p) * vy (p_dir p) + vz (p_dir p) * vz (p_dir p))) by ring.
    rewrite Hu, Q. field. lra.
  - exists (p_m p * s). split; [apply Rmult_le_pos; lra|]. reflexivity.
  - intros HE'.
    replace (p_m p * s * vx (p_dir p) * vx (p_dir p) + p_m p * s * vy (p_dir p) * vy (p_dir p) + p_m p * s * vz (p_dir p) * vz (p_dir p))
      with (p_m p * s * (vx (p_dir p) * vx (p_dir p) + vy (p_dir p) * vy (p_dir p) + vz (p_dir p) * vz (p_dir p))) by ring.
    rewrite Hu, Rmult_1_r. apply Rmult_lt_0_compat; [exact Hm|]. unfold s. apply sqrt_lt_R0. apply Rdiv_lt_0_compat; lra.
Qed.
Print Assumptions C108_momentum.
Example C108_momentum_applies : vdot (get_momentum {| p_m := 2; p_Z := 1; p_E := 9; p_Ec := 0; p_Es := 0; p_Ed := 0;
    p_pos := mkV 0 0 0; p_dir := mkV (6 / 10) (8 / 10) 0; p_pos_old := mkV 0 0 0; p_dir_old := mkV 0 0 0; p_pos_origin := mkV 0 0 0;
    p_energy_origin := 0; p_asymptotic_deflection := 0; p_stopped := false; p_left := false; p_incident := true; p_first_step := true;
    p_trajectory := []; p_energies := []; p_track_trajectories := false; p_number_collision_events := 0%nat; p_backreflected := false;
    p_interaction_index := 0%nat; p_weight := 1; p_tag := 0%Z; p_tracked_vector := mkV 0 0 0 |}) (mkV (6 / 10) (8 / 10) 0) = 6.
Proof.
  unfold get_momentum, vdot. cbn [p_m p_E p_dir vx vy vz]. rewrite !nZ_R. toR.
  replace (2 * 9 / 2) with (3 * 3) by lra. rewrite sqrt_square by lra. lra.
Qed.

(** Snell's law for a particle: the angle to the surface normal before is the
    one with cosine |costheta| (at most 1), after it has the sine multiplied by
    sqrt(E_old/E_new); the result is what the angle decreases by for a
    particle flying with the normal (costheta >= 0) and what it increases by
    otherwise. *)
Theorem C108_refraction_angle :
  forall c E_old E_new : R, 0 <= E_old -> 0 < E_new ->
    (1 < Rabs c -> refraction_angle c E_old E_new = Ok 0) /\
    (Rabs c <= 1 -> (1 - c * c) * E_old <= E_new ->
     exists before after, 0 <= before <= PI / 2 /\ 0 <= after <= PI / 2 /\ cos before = Rabs c /\
       E_new * (sin after * sin after) = E_old * (sin before * sin before) /\
       refraction_angle c E_old E_new = Ok (if Rle_dec 0 c then before - after else after - before)).
Proof.
  intros c Eo En Ho Hn. unfold refraction_angle. rewrite !nZ_R. cbn [nis_nan NumR negb rassert bind]. split.
  - intros H. replace (nlt 1 (nabs c)) with true by (symmetry; apply nlt_true; toR; lra). toR.
    assert (S : nsignum c * nsignum c = 1) by (cbn; unfold Rsignum; destruct (Rle_dec 0 c); lra).
    rewrite S. replace (1 - 1) with 0 by lra. rewrite sqrt_0, Rmult_0_l. f_equal. lra.
  - intros H HE. replace (nlt 1 (nabs c)) with false by (symmetry; apply nlt_false; toR; lra). toR.
    assert (Hc : -1 <= c <= 1) by (unfold Rabs in H; destruct (Rcase_abs c); lra).
    assert (H1 : 0 <= 1 - c * c <= 1) by nra.
    pose proof (sqrt_sqrt _ (proj1 H1)) as Q1. pose proof (sqrt_pos (1 - c * c)) as P1. set (s := sqrt (1 - c * c)) in *.
    assert (H2 : 0 <= Eo / En) by (apply Rmult_le_pos; [lra|apply Rlt_le, Rinv_0_lt_compat, Hn]).
    pose proof (sqrt_sqrt _ H2) as Q2. pose proof (sqrt_pos (Eo / En)) as P2. set (f := sqrt (Eo / En)) in *.
    assert (s <= 1) by nra.
    assert (Hsf : (s * f) * (s * f) <= 1).
    { replace (s * f * (s * f)) with ((s * s) * (f * f)) by ring. rewrite Q1, Q2.
      replace ((1 - c * c) * (Eo / En)) with ((1 - c * c) * Eo / En) by (field; lra).
      apply Rmult_le_reg_r with En; [exact Hn|]. unfold Rdiv. rewrite Rmult_assoc, Rinv_l, Rmult_1_r by lra. lra. }
    assert (0 <= s * f) by (apply Rmult_le_pos; assumption).
    assert (Hsf1 : s * f <= 1) by nra.
    exists (asin s), (asin (s * f)).
    assert (A : forall x, 0 <= x <= 1 -> 0 <= asin x <= PI / 2).
    { intros x Hx. split; [|apply asin_bound]. destruct (Rle_dec 0 (asin x)) as [L|L]; [exact L|]. exfalso.
      pose proof (asin_bound x). pose proof PI_RGT_0. pose proof (sin_lt_0_var (asin x)) as K. rewrite sin_asin in K by lra. lra. }
    split; [apply A; lra|]. split; [apply A; lra|].
    assert (B : cos (asin s) = Rabs c).
    { rewrite cos_asin by lra. unfold Rsqr. rewrite Q1. replace (1 - (1 - c * c)) with (Rsqr c) by (unfold Rsqr; ring). apply sqrt_Rsqr_abs. }
    split; [exact B|]. split.
    + rewrite !sin_asin by lra. replace (s * f * (s * f)) with ((s * s) * (f * f)) by ring. rewrite Q2. field. lra.
    + f_equal. cbn [nsignum nasin NumR]. unfold Rsignum. destruct (Rle_dec 0 c); lra.
Qed.
Print Assumptions C108_refraction_angle.
Example C108_refraction_applies : Rabs (6 / 10) <= 1 /\ (1 - 6 / 10 * (6 / 10)) * 4 <= 9.
Proof. split; [rewrite Rabs_pos_eq; lra|lra]. Qed.

(** The run summary counts the reflected ions and the sputtered atoms. *)
Theorem C108_summary {F} {NF : Num F} :
  forall n (ps : list (Particle F)),
    let s := fold_left summary_add ps (summary_new n) in
    su_num_incident s = n /\
    su_num_reflected s = length (filter (fun p => p_incident p && p_left p) ps) /\
    su_num_sputtered s = length (filter (fun p => negb (p_incident p) && p_left p) ps).
Proof.
  intros n ps. cbv zeta.
  assert (H : forall (ps : list (Particle F)) s, let s' := fold_left summary_add ps s in su_num_incident s' = su_num_incident s /\
    su_num_reflected s' = (su_num_reflected s + length (filter (fun p => p_incident p && p_left p) ps))%nat /\
    su_num_sputtered s' = (su_num_sputtered s + length (filter (fun p => negb (p_incident p) && p_left p) ps))%nat).
  { clear n ps. induction ps as [|p ps IH]; intros s; cbn [fold_left filter length]; [cbv zeta; lia|].
    specialize (IH (summary_add s p)). cbv zeta in *. destruct IH as (I1 & I2 & I3). rewrite I1, I2, I3. unfold summary_add.
    destruct (p_incident p), (p_left p); cbn; lia. }
  destruct (H ps (summary_new n)) as (H1 & H2 & H3). cbn [summary_new su_num_incident su_num_reflected su_num_sputtered plus] in *. auto.
Qed.
Print Assumptions C108_summary.

(** The centroid of a triangle lies in it, at the mean of its corners, and the
    distance to the centre is the distance to it. *)
Theorem C108_centroid :
  forall x1 x2 x3 y1 y2 y3 : R,
    let t := triangle_new x1 x2 x3 y1 y2 y3 in
    let '(cx, cy) := triangle_centroid t in
    3 * cx = x1 + x2 + x3 /\ 3 * cy = y1 + y2 + y3 /\
    ((x1 - x3) * (y2 - y3) - (x2 - x3) * (y1 - y3) <> 0 -> triangle_contains t cx cy = true) /\
    forall x y, triangle_distance_to_center t x y = sqrt ((x - cx) * (x - cx) + (y - cy) * (y - cy)).
Proof.
  intros x1 x2 x3 y1 y2 y3 t. destruct (triangle_centroid t) as [cx cy] eqn:E. pose proof E as E'.
  unfold triangle_centroid, t in E'. cbn [triangle_new t_x1 t_x2 t_x3 t_y1 t_y2 t_y3] in E'. rewrite !nZ_R in E'.
  pose proof (f_equal fst E') as Ex. pose proof (f_equal snd E') as Ey. cbn [fst snd] in Ex, Ey. toR_in Ex. toR_in Ey.
  split; [lra|]. split; [lra|]. split.
  - intros H. apply triangle_contains_hull.
    + unfold tri_det. intro K. apply H. rewrite <- K. ring.
    + exists (1 / 3), (1 / 3), (1 / 3). repeat split; lra.
  - intros x y. unfold triangle_distance_to_center. rewrite E. reflexivity.
Qed.
Print Assumptions C108_centroid.
Example C108_centroid_applies : triangle_contains (triangle_new 0 3 0 0 0 3) 1 1 = true.
Proof.
  destruct (triangle_centroid (triangle_new 0 3 0 0 0 3)) as [cx cy] eqn:E.
  pose proof (C108_centroid 0 3 0 0 0 3) as H. cbv zeta in H. rewrite E in H. destruct H as (H1 & H2 & H3 & _).
  replace 1 with cx at 1 by lra. replace 1 with cy by lra. apply H3. lra.
Qed.

(** The distance to a layer is the distance to the nearer of its two faces. *)
Theorem C108_layer_distance :
  forall (l : Layer1D R) x, let d := layer_distance_to l x in
    d <= Rabs (x - l_top l) /\ d <= Rabs (x - l_bottom l) /\ (d = Rabs (x - l_top l) \/ d = Rabs (x - l_bottom l)).
Proof.
  intros l x d. unfold d, layer_distance_to. toR.
  destruct (nlt (Rabs (x - l_top l)) (Rabs (x - l_bottom l))) eqn:E.
  - apply nlt_true in E. repeat split; [lra|lra|left; reflexivity].
  - apply nlt_false in E. repeat split; [lra|lra|right; reflexivity].
Qed.
Print Assumptions C108_layer_distance.

(** The concentrations a material reports at a point are the shares of its
    densities there and add up to one. *)
Theorem C108_concentrations :
  forall (mat : Material R) x y z ds,
    g_get_densities (mat_geometry mat) x y z = Ok ds -> g_get_total_density (mat_geometry mat) x y z = Ok (Rsum ds) -> 0 < Rsum ds ->
    exists cs, mat_get_concentrations mat x y z = Ok cs /\ Rsum cs = 1 /\ Forall2 (fun c d => c * Rsum ds = d) cs ds.
Proof.
  intros mat x y z ds Hd Ht Hs. unfold mat_get_concentrations. rewrite Ht, Hd. cbn [bind]. eexists. split; [reflexivity|].
  change (map (fun i => (i /! Rsum ds)%num) ds) with (map (fun d => d / Rsum ds) ds). split.
  - rewrite Rsum_scale. field. lra.
  - set (s := Rsum ds) in *. clearbody s. clear -Hs. induction ds as [|d ds IH]; constructor; [field; lra|exact IH].
Qed.
Print Assumptions C108_concentrations.
(** Adding vectors adds their components. *)
Example C108_vector_sum : forall u v : Vector R, v_add u v = mkV (vx u + vx v) (vy u + vy v) (vz u + vz v).
Proof. reflexivity. Qed.
Example C108_concentrations_apply : exists cs,
  mat_get_concentrations {| mat_m := []; mat_Z := []; mat_Eb := []; mat_Es := []; mat_Ec := []; mat_Ed := []; mat_interaction_index := [];
    mat_geometry := mesh0d_geometry {| m0_densities := [1; 3]; m0_concentrations := [1 / 4; 3 / 4]; m0_ck := 1; m0_energy_barrier_thickness := 1 |};
    mat_surface_binding_model := SBM_AVERAGE; mat_bulk_binding_model := BBM_AVERAGE |} 0 0 0 = Ok cs /\ Rsum cs = 1.
Proof.
  destruct (C108_concentrations {| mat_m := []; mat_Z := []; mat_Eb := []; mat_Es := []; mat_Ec := []; mat_Ed := []; mat_interaction_index := [];
    mat_geometry := mesh0d_geometry {| m0_densities := [1; 3]; m0_concentrations := [1 / 4; 3 / 4]; m0_ck := 1; m0_energy_barrier_thickness := 1 |};
    mat_surface_binding_model := SBM_AVERAGE; mat_bulk_binding_model := BBM_AVERAGE |} 0 0 0 [1; 3]) as (cs & H1 & H2 & _).
  - reflexivity.
  - cbn [mat_geometry mesh0d_geometry g_get_total_density m0_densities]. rewrite nsum_R. reflexivity.
  - cbn. lra.
  - exists cs. auto.
Qed.
