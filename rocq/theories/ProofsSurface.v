(** * ProofsSurface.v - poles, recoil position, free flight, surface barrier, stopping (exact arithmetic) *)
From Coq Require Import ZArith List Bool Reals Lra Lia.
From Verif Require Import Num NumR ModelTypes ModelConsts ModelParticle ModelInteractions ModelGeometry
  ModelMaterial ModelBca Spec SpecR ProofsBase ProofsBca ProofsStep ProofsKinematics.
Import ListNotations.
Open Scope R_scope.

(** ** the poles *)
Lemma rotate_off_axis d psi phi :
  is_unit d -> off_axis d -> sin psi <> 0 -> sin phi <> 0 -> off_axis (rotate_dir d psi phi).
Proof.
  intros Hu Hx Hs Hf. rewrite rotate_dir_raw by assumption.
  unfold off_axis in *. destruct d as [x y z]. cbn [raw_rotate vx vy vz] in *.
  assert (Hx2 : 0 < 1 - x * x) by (apply Rabs_def2 in Hx; nra).
  pose proof (sqrt_sqrt (1 - x * x) (Rlt_le _ _ Hx2)) as Ha2.
  set (a := sqrt (1 - x * x)) in *. clearbody a.
  pose proof (sc1 psi) as Hp. pose proof (sc1 phi) as Hq.
  pose proof (Rsqr_pos_lt _ Hs) as Hs2. pose proof (Rsqr_pos_lt _ Hf) as Hf2. unfold Rsqr in Hs2, Hf2.
  set (s := sin psi) in *. set (c := cos psi) in *. set (sf := sin phi) in *. set (cf := cos phi) in *.
  clearbody s c sf cf.
  assert (Hlt : (c * x + s * cf * a) * (c * x + s * cf * a) < 1).
  { assert (H : (c * x + s * cf * a) * (c * x + s * cf * a)
      = (c * c + s * cf * (s * cf)) * (x * x + a * a) - (c * a - s * cf * x) * (c * a - s * cf * x)) by ring.
    rewrite H, Ha2. pose proof (Rle_0_sqr (c * a - s * cf * x)) as Hq2. unfold Rsqr in Hq2.
    assert (0 < (s * s) * (sf * sf)) by (apply Rmult_lt_0_compat; assumption).
    assert (c * c + s * cf * (s * cf) = 1 - s * s * (sf * sf)) by nra. nra. }
  apply Rabs_def1; nra.
Qed.
Lemma rotate_to_pole : rotate_dir (mkV 0 1 0) (PI / 2) 0 = mkV 1 0 0.
Proof.
  assert (Hu : is_unit (mkV 0 1 0)) by (unfold is_unit, vdot; cbn; ring).
  rewrite rotate_dir_raw; [|exact Hu|unfold off_axis; cbn; rewrite Rabs_R0; lra].
  unfold raw_rotate. cbn [vx vy vz]. rewrite cos_PI2, sin_PI2, cos_0, sin_0.
  replace (1 - 0 * 0) with 1 by ring. rewrite sqrt_1. f_equal; field.
Qed.

(** ** the recoil position *)
Definition recoil_offset (pos dir : Vector R) (bcg : BinaryCollisionGeometry R) : Vector R :=
  vminus (recoil_position pos dir bcg) (vplus pos (vscale (bcg_mfp bcg) dir)).

Lemma recoil_offset_value pos dir bcg :
  let p := bcg_impact_parameter bcg in
  let cf := cos (bcg_phi_azimuthal bcg) in
  let sf := sin (bcg_phi_azimuthal bcg) in
  let a := sqrt (1 - vx dir * vx dir) in
  recoil_offset pos dir bcg =
    mkV (- (p * cf * a)) (- (p * (sf * vz dir - cf * vy dir * vx dir) / a))
        (p * (sf * vy dir - cf * vx dir * vz dir) / a).
Proof.
  cbv zeta. unfold recoil_offset, recoil_position, vminus, vplus, vscale. toR. cbn [vx vy vz].
  f_equal; ring.
Qed.
Lemma recoil_offset_dot pos dir bcg :
  is_unit dir -> off_axis dir ->
  let p := bcg_impact_parameter bcg in
  let cf := cos (bcg_phi_azimuthal bcg) in
  let a := sqrt (1 - vx dir * vx dir) in
  0 < a /\
  vdot (recoil_offset pos dir bcg) dir = - (2 * p * cf * vx dir * (vz dir * vz dir) / a) /\
  (p * cf * vx dir * vz dir = 0 -> vdot (recoil_offset pos dir bcg) (recoil_offset pos dir bcg) = p * p).
Proof.
  intros Hu Hx. cbv zeta. rewrite recoil_offset_value. cbv zeta.
  unfold off_axis, is_unit, vdot in *. destruct dir as [x y z]. cbn [vx vy vz] in *.
  assert (Hx2 : 0 < 1 - x * x) by (apply Rabs_def2 in Hx; nra).
  pose proof (sqrt_lt_R0 _ Hx2) as Ha.
  pose proof (sqrt_sqrt (1 - x * x) (Rlt_le _ _ Hx2)) as Ha2.
  set (a := sqrt (1 - x * x)) in *. clearbody a.
  pose proof (sc1 (bcg_phi_azimuthal bcg)) as Hf.
  set (sf := sin (bcg_phi_azimuthal bcg)) in *. set (cf := cos (bcg_phi_azimuthal bcg)) in *. clearbody sf cf.
  set (p := bcg_impact_parameter bcg). clearbody p.
  assert (Hi : a * / a = 1) by (field; lra). unfold Rdiv. set (i := / a) in *. clearbody i.
  assert (Hyz : y * y + z * z = a * a) by lra.
  split; [exact Ha|]. split.
  - transitivity (p * cf * x * (i * (y * y - z * z) - a)); [ring|].
    transitivity (p * cf * x * (i * (a * a - 2 * (z * z)) - a)); [rewrite <- Hyz; ring|].
    transitivity (p * cf * x * ((a * i) * a - a - 2 * (z * z) * i)); [ring|]. rewrite Hi. ring.
  - intros H0.
    transitivity (p * p * (cf * cf * (a * a)) + (i * i) * (p * p * (sf * sf + cf * cf * (x * x)) * (y * y + z * z)
        - 4 * sf * y * p * (p * cf * x * z))); [ring|].
    rewrite H0, Hyz.
    transitivity (p * p * (cf * cf * (a * a)) + (a * i) * (a * i) * (p * p * (sf * sf + cf * cf * (x * x)))); [ring|].
    rewrite Hi, Ha2. transitivity (p * p * (sf * sf + cf * cf)); [ring|]. rewrite Hf. ring.
Qed.
Lemma recoil_offset_iff pos dir bcg :
  is_unit dir -> off_axis dir ->
  (vdot (recoil_offset pos dir bcg) dir = 0 <->
   bcg_impact_parameter bcg * cos (bcg_phi_azimuthal bcg) * vx dir * vz dir = 0).
Proof.
  intros Hu Hx. destruct (recoil_offset_dot pos dir bcg Hu Hx) as (Ha & Hd & _).
  rewrite Hd. set (a := sqrt _) in *.
  set (q := bcg_impact_parameter bcg * cos (bcg_phi_azimuthal bcg) * vx dir * vz dir).
  replace (- (2 * bcg_impact_parameter bcg * cos (bcg_phi_azimuthal bcg) * vx dir * (vz dir * vz dir) / a))
    with (- (2 / a) * (q * vz dir)) by (unfold q; field; lra).
  split; intros H.
  - apply Rmult_integral in H. destruct H as [H|H].
    + exfalso. assert (0 < 2 / a) by (apply Rdiv_lt_0_compat; lra). lra.
    + apply Rmult_integral in H. destruct H as [H|H]; [exact H|]. unfold q. rewrite H. ring.
  - rewrite H. ring.
Qed.

(** ** refraction *)
Definition refract (n d : Vector R) (E Es : R) : Vector R :=
  p_dir (surface_refraction n Es (set_p_E E (set_p_dir d
    (particle_new 0 0 0 0 0 0 0 0 0 0 0 0 false false 0%nat)))).
Lemma surface_refraction_value n Es (p : Particle R) :
  let E := p_E p in
  let c := vdot (p_dir p) n in
  let u := vplus (vscale (sqrt (E / (E + Es))) (p_dir p))
                 (vscale ((- sqrt E * c + sqrt (E * (c * c) + Es)) / sqrt (E + Es)) n) in
  surface_refraction n Es p = set_p_E (E + Es) (set_p_dir u p).
Proof.
  cbv zeta. unfold surface_refraction, vplus, vscale, v_dot, vdot. toR. destruct p; cbn. reflexivity.
Qed.
Lemma sqrt_Ediv E Es : 0 <= E -> 0 < E + Es -> sqrt (E / (E + Es)) = sqrt E / sqrt (E + Es).
Proof. intros H1 H2. apply sqrt_div; assumption. Qed.

Section Refraction.
  Variables (n d : Vector R) (E Es : R).
  Hypotheses (Hn : is_unit n) (Hd : is_unit d) (HE : 0 <= E) (HEs : 0 < E + Es)
             (Hc : 0 <= E * (vdot d n * vdot d n) + Es).
  Let c := vdot d n.
  Let u := vplus (vscale (sqrt (E / (E + Es))) d)
                 (vscale ((- sqrt E * c + sqrt (E * (c * c) + Es)) / sqrt (E + Es)) n).
  Lemma refraction_facts :
    is_unit u /\
    (forall t, vdot t n = 0 -> sqrt (E + Es) * vdot u t = sqrt E * vdot d t) /\
    sqrt (E + Es) * vdot u n = sqrt (E * (c * c) + Es) /\
    vscale (sqrt (E + Es)) u = vplus (vscale (sqrt E) d) (vscale (- sqrt E * c + sqrt (E * (c * c) + Es)) n).
  Proof.
    pose proof (sqrt_lt_R0 _ HEs) as Hr.
    pose proof (sqrt_sqrt _ (Rlt_le _ _ HEs)) as Hr2.
    pose proof (sqrt_sqrt _ HE) as He2.
    pose proof (sqrt_sqrt _ Hc) as Hq2. fold c in Hq2.
    unfold u. rewrite sqrt_Ediv by assumption.
    set (r := sqrt (E + Es)) in *. set (e := sqrt E) in *.
    set (q := sqrt (E * (c * c) + Es)) in *.
    assert (Hv : vscale r (vplus (vscale (e / r) d) (vscale ((- e * c + q) / r) n))
                 = vplus (vscale e d) (vscale (- e * c + q) n)).
    { unfold vscale, vplus. cbn [vx vy vz]. f_equal; field; lra. }
    set (w := vplus (vscale (e / r) d) (vscale ((- e * c + q) / r) n)) in *.
    assert (Hw : forall t, r * vdot w t = e * vdot d t + (- e * c + q) * vdot n t).
    { intros t. transitivity (vdot (vscale r w) t); [unfold vdot, vscale; cbn; ring|].
      rewrite Hv. unfold vdot, vplus, vscale. cbn. ring. }
    assert (Hnn : vdot n n = 1) by exact Hn. assert (Hdd : vdot d d = 1) by exact Hd.
    assert (Hcd : vdot n d = c) by (unfold c, vdot; ring).
    split; [|split; [|split; [|exact Hv]]].
    - unfold is_unit. apply Rmult_eq_reg_l with (r * r); [|nra].
      transitivity (r * (r * vdot w w)); [ring|].
      rewrite Hw. assert (H1 := Hw d). assert (H2 := Hw n).
      replace (vdot d w) with (vdot w d) by (unfold vdot; ring).
      replace (vdot n w) with (vdot w n) by (unfold vdot; ring).
      transitivity (e * (r * vdot w d) + (- e * c + q) * (r * vdot w n)); [ring|].
      rewrite H1, H2, Hnn, Hdd, Hcd. fold c.
      transitivity (e * e - (e * e) * (c * c) + q * q); [ring|].
      rewrite He2, Hq2, Hr2. ring.
    - intros t Ht. rewrite Hw. replace (vdot n t) with (vdot t n) by (unfold vdot; ring). rewrite Ht. ring.
    - rewrite Hw, Hnn. fold c. ring.
  Qed.
End Refraction.

Lemma refraction_inverse n (p : Particle R) Es :
  is_unit n -> is_unit (p_dir p) -> 0 < p_E p -> 0 <= Es -> 0 <= vdot (p_dir p) n ->
  let p1 := surface_refraction n Es p in
  let p2 := surface_refraction n (- Es) p1 in
  p_E p2 = p_E p /\ p_dir p2 = p_dir p.
Proof.
  intros Hn Hd HE HEs Hc. cbv zeta. rewrite !surface_refraction_value. cbv zeta.
  cbn [p_E p_dir set_p_E set_p_dir]. split; [ring|].
  set (d := p_dir p) in *. set (E := p_E p) in *. set (c := vdot d n) in *.
  assert (Hq : 0 <= E * (c * c) + Es) by (assert (0 <= c * c) by apply Rle_0_sqr; nra).
  assert (HEE : 0 < E + Es) by lra.
  destruct (refraction_facts n d E Es Hn Hd (Rlt_le _ _ HE) HEE Hq) as (Hu & _ & Hun & Huv).
  fold c in Hu, Hun, Huv.
  set (u := vplus (vscale (sqrt (E / (E + Es))) d) _) in *.
  set (c1 := vdot u n) in *.
  replace (E + Es + - Es) with E by ring.
  assert (Hc1 : (E + Es) * (c1 * c1) + - Es = E * (c * c)).
  { assert (H : (sqrt (E + Es) * c1) * (sqrt (E + Es) * c1) = E * (c * c) + Es) by (rewrite Hun; apply sqrt_sqrt; exact Hq).
    replace ((sqrt (E + Es) * c1) * (sqrt (E + Es) * c1)) with ((sqrt (E + Es) * sqrt (E + Es)) * (c1 * c1)) in H by ring.
    rewrite sqrt_sqrt in H by lra. lra. }
  rewrite Hc1.
  assert (Hsc : sqrt (E * (c * c)) = sqrt E * c).
  { rewrite sqrt_mult; [|lra|apply Rle_0_sqr]. rewrite sqrt_square by exact Hc. reflexivity. }
  rewrite Hsc.
  replace (- sqrt (E + Es) * c1) with (- (sqrt (E + Es) * c1)) by ring. rewrite Hun.
  assert (Hs : sqrt ((E + Es) / E) = sqrt (E + Es) / sqrt E) by (apply sqrt_div; lra).
  rewrite Hs. pose proof (sqrt_lt_R0 _ HE) as HsE.
  set (q := sqrt (E * (c * c) + Es)) in *. set (e := sqrt E) in *. set (r := sqrt (E + Es)) in *.
  destruct d as [dx dy dz], n as [nx ny nz], u as [ux uy uz].
  unfold vplus, vscale in *. cbn [vx vy vz] in *. injection Huv; intros Hz Hy Hx.
  f_equal.
  - transitivity ((r * ux + (- q + e * c) * nx) / e); [field; lra|]. rewrite Hx. field. lra.
  - transitivity ((r * uy + (- q + e * c) * ny) / e); [field; lra|]. rewrite Hy. field. lra.
  - transitivity ((r * uz + (- q + e * c) * nz) / e); [field; lra|]. rewrite Hz. field. lra.
Qed.

(** ** the surface barrier *)
Lemma vtoward_unit a b : a <> b -> is_unit (vtoward a b).
Proof.
  intros Hne. unfold is_unit, vtoward.
  assert (Hp : 0 < vdot (vminus b a) (vminus b a)).
  { destruct a as [ax ay az], b as [bx by_ bz]. unfold vdot, vminus. cbn.
    pose proof (Rle_0_sqr (bx - ax)) as H1. pose proof (Rle_0_sqr (by_ - ay)) as H2. pose proof (Rle_0_sqr (bz - az)) as H3.
    unfold Rsqr in *.
    destruct (Req_EM_T bx ax) as [E1|E1]; [destruct (Req_EM_T by_ ay) as [E2|E2]; [destruct (Req_EM_T bz az) as [E3|E3]|]|].
    - exfalso. apply Hne. subst. reflexivity.
    - assert (0 < (bz - az) * (bz - az)) by (apply Rsqr_pos_lt; lra). lra.
    - assert (0 < (by_ - ay) * (by_ - ay)) by (apply Rsqr_pos_lt; lra). lra.
    - assert (0 < (bx - ax) * (bx - ax)) by (apply Rsqr_pos_lt; lra). lra. }
  pose proof (sqrt_lt_R0 _ Hp) as Hs. pose proof (sqrt_sqrt _ (Rlt_le _ _ Hp)) as Hs2.
  fold (vdist a b) in Hs, Hs2.
  transitivity (vdot (vminus b a) (vminus b a) * (/ vdist a b * / vdist a b)); [unfold vdot, vscale; cbn; ring|].
  rewrite <- Hs2. field. lra.
Qed.

Lemma surface_inv mat (p p' : Particle R) :
  surface_binding_energy mat p = Ok p' ->
  exists Es now before,
    actual_surface_binding_energy mat p (vx (p_pos_old p)) (vy (p_pos_old p)) (vz (p_pos_old p)) = Ok Es /\
    in_barrier mat (p_pos p) = Ok now /\ in_barrier mat (p_pos_old p) = Ok before /\
    match before, now with
    | false, true =>
        if p_backreflected p then p' = set_p_backreflected false p
        else exists c, mat_closest_point mat (vx (p_pos p)) (vy (p_pos p)) (vz (p_pos p)) = Ok (vx c, vy c, vz c) /\
             p' = (if isotropic (mat_surface_binding_model mat) then set_p_E (p_E p + Es) p
                   else surface_refraction (vtoward (p_pos p) c) Es p)
    | true, false =>
        exists c, mat_closest_point mat (vx (p_pos p)) (vy (p_pos p)) (vz (p_pos p)) = Ok (vx c, vy c, vz c) /\
        let n := vtoward (p_pos p) c in
        let costheta := vdot (p_dir p) n in
        let L := if isotropic (mat_surface_binding_model mat) then p_E p else p_E p * costheta * costheta in
        (0 <= costheta /\ p' = p \/
         costheta < 0 /\ Es < L /\
           p' = (if isotropic (mat_surface_binding_model mat) then set_p_E (p_E p - Es) p
                 else surface_refraction (vscale (-1) n) (- Es) p) \/
         costheta < 0 /\ L <= Es /\
           p' = set_p_backreflected true (set_p_dir (vplus (p_dir p) (vscale (-2 * costheta) n)) p))
    | _, _ => p' = p
    end.
Proof.
  unfold surface_binding_energy. intros H.
  apply bind_ok in H. destruct H as (Es & HEs & H).
  apply bind_ok in H. destruct H as (now & Hnow & H).
  apply bind_ok in H. destruct H as (before & Hbef & H).
  exists Es, now, before. split; [exact HEs|]. split; [exact Hnow|]. split; [exact Hbef|].
  destruct before, now; cbn [negb andb] in H; try (inv_ok; reflexivity).
  - (* leaving *)
    apply bind_ok in H. destruct H as ([[x2 y2] z2] & Hcp & H).
    exists (mkV x2 y2 z2). split; [exact Hcp|]. cbv zeta.
    set (n := vtoward (p_pos p) (mkV x2 y2 z2)).
    set (mag := sqrt ((x2 - vx (p_pos p)) * (x2 - vx (p_pos p)) + (y2 - vy (p_pos p)) * (y2 - vy (p_pos p))
                      + (z2 - vz (p_pos p)) * (z2 - vz (p_pos p)))).
    assert (Hn : n = mkV ((x2 - vx (p_pos p)) / mag) ((y2 - vy (p_pos p)) / mag) ((z2 - vz (p_pos p)) / mag)).
    { unfold n, vtoward, vscale, vminus, vdist, vdot. cbn [vx vy vz]. fold mag. unfold Rdiv. f_equal; apply Rmult_comm. }
    assert (Hcos : (x2 - vx (p_pos p)) * vx (p_dir p) / mag + (y2 - vy (p_pos p)) * vy (p_dir p) / mag
                   + (z2 - vz (p_pos p)) * vz (p_dir p) / mag = vdot (p_dir p) n).
    { rewrite Hn. unfold vdot. cbn [vx vy vz]. unfold Rdiv. ring. }
    toR_in H. fold mag in H. rewrite Hcos in H.
    set (ct := vdot (p_dir p) n) in *.
    destruct (ct <! IZR 0) eqn:Hlt; bool_R.
    + destruct (nlt Es _) eqn:HL; bool_R.
      * right. left. split; [exact Hlt|]. split.
        { destruct (mat_surface_binding_model mat); exact HL. }
        assert (HnE : mkV (- (x2 - vx (p_pos p)) / mag) (- (y2 - vy (p_pos p)) / mag) (- (z2 - vz (p_pos p)) / mag) = vscale (-1) n).
        { rewrite Hn. unfold vscale. cbn [vx vy vz]. f_equal; unfold Rdiv; ring. }
        inv_ok. rewrite HnE. destruct (mat_surface_binding_model mat); reflexivity.
      * right. right. split; [exact Hlt|]. split.
        { destruct (mat_surface_binding_model mat); exact HL. }
        inv_ok. f_equal. f_equal. rewrite Hn. unfold vplus, vscale. cbn [vx vy vz]. f_equal; unfold Rdiv; ring.
    + left. split; [exact Hlt|]. inv_ok. reflexivity.
  - (* entering *)
    destruct (p_backreflected p); [inv_ok; reflexivity|].
    apply bind_ok in H. destruct H as ([[x2 y2] z2] & Hcp & H).
    exists (mkV x2 y2 z2). split; [exact Hcp|].
    toR_in H. inv_ok.
    assert (Hn : mkV ((x2 - vx (p_pos p)) / sqrt ((x2 - vx (p_pos p)) * (x2 - vx (p_pos p)) + (y2 - vy (p_pos p)) * (y2 - vy (p_pos p))
                      + (z2 - vz (p_pos p)) * (z2 - vz (p_pos p)))) ((y2 - vy (p_pos p)) / sqrt ((x2 - vx (p_pos p)) * (x2 - vx (p_pos p)) + (y2 - vy (p_pos p)) * (y2 - vy (p_pos p))
                      + (z2 - vz (p_pos p)) * (z2 - vz (p_pos p)))) ((z2 - vz (p_pos p)) / sqrt ((x2 - vx (p_pos p)) * (x2 - vx (p_pos p)) + (y2 - vy (p_pos p)) * (y2 - vy (p_pos p))
                      + (z2 - vz (p_pos p)) * (z2 - vz (p_pos p)))) = vtoward (p_pos p) (mkV x2 y2 z2)).
    { unfold vtoward, vscale, vminus, vdist, vdot. cbn [vx vy vz]. unfold Rdiv; f_equal; apply Rmult_comm. }
    rewrite Hn. destruct (mat_surface_binding_model mat); reflexivity.
Qed.
