(** * ProofsFrame.v - surface-normal frames in exact arithmetic *)
From Coq Require Import ZArith List Bool Lia Reals Lra.
From Verif Require Import Num NumR ModelTypes ModelConsts ModelLib SpecR.
Import ListNotations.
Open Scope R_scope.

Lemma Rpowf_2 x : npowf x (nZ 2) = x * x.
Proof.
  rewrite nZ_R. cbn [npowf NumR]. unfold Rpowf. destruct (Rlt_dec 0 x) as [H|H].
  - replace 2 with (INR 2) by (simpl; ring). rewrite Rpower_pow by exact H. simpl. ring.
  - destruct (Req_EM_T x 0) as [->|Hx].
    + destruct (Req_EM_T 2 0); [lra|ring].
    + assert (E : Int_part 2 = 2%Z). { unfold Int_part. rewrite <- (tech_up 2 3); [reflexivity|simpl; lra|simpl; lra]. }
      rewrite E. destruct (Req_EM_T (IZR 2) 2); [|lra]. apply powerRZ2.
Qed.

(** the matrix, written out *)
Definition frame (nx ny nz : R) (u : Vector R) : Vector R := m3_apply (surface_rotation nx ny nz) u.
Lemma rotation_generic nx ny nz : nx <> 1 ->
  surface_rotation nx ny nz =
  mkM3 (1 - (ny * ny + nz * nz) / (1 - nx)) (- ny) (- nz)
       ny (1 - ny * ny / (1 - nx)) (- (ny * nz / (1 - nx)))
       nz (- (ny * nz / (1 - nx))) (1 - nz * nz / (1 - nx)).
Proof.
  intros H. unfold surface_rotation. toR.
  replace (negb (- nx * 1 + - ny * 0 + - nz * 0 ==! -1)) with true.
  2:{ symmetry. apply negb_true_iff. apply neqb_false. intros E. apply H. lra. }
  cbn [vx vy vz].
  replace (- nz * 1 - - nx * 0) with (- nz) by ring. replace (- nx * 0 - - ny * 1) with ny by ring.
  replace (- ny * 0 - - nz * 0) with 0 by ring. replace (1 + (- nx * 1 + - ny * 0 + - nz * 0)) with (1 - nx) by ring.
  unfold m3_mul, m3_div, m3_map2, m3_identity. cbn [a11 a12 a13 a21 a22 a23 a31 a32 a33]. toR.
  f_equal; field; lra.
Qed.
Lemma rotation_opposite ny nz : surface_rotation 1 ny nz = mkM3 (-1) 0 0 0 1 0 0 0 (-1).
Proof.
  unfold surface_rotation. toR.
  replace (negb (- (1) * 1 + - ny * 0 + - nz * 0 ==! -1)) with false.
  2:{ symmetry. apply negb_false_iff. apply neqb_true. lra. }
  unfold m3_rotation_y. toR. rewrite cos_PI, sin_PI. f_equal; ring.
Qed.
Lemma frame_generic nx ny nz u : nx <> 1 ->
  frame nx ny nz u =
  mkV (vx u - (ny * ny + nz * nz) / (1 - nx) * vx u - ny * vy u - nz * vz u)
      (ny * vx u + (1 - ny * ny / (1 - nx)) * vy u - ny * nz / (1 - nx) * vz u)
      (nz * vx u - ny * nz / (1 - nx) * vy u + (1 - nz * nz / (1 - nx)) * vz u).
Proof.
  intros H. unfold frame. rewrite rotation_generic by exact H.
  unfold m3_apply. cbn [a11 a12 a13 a21 a22 a23 a31 a32 a33]. toR. f_equal; ring.
Qed.
Lemma frame_opposite ny nz u : frame 1 ny nz u = mkV (- vx u) (vy u) (- vz u).
Proof.
  unfold frame. rewrite rotation_opposite. unfold m3_apply. cbn [a11 a12 a13 a21 a22 a23 a31 a32 a33]. toR. f_equal; ring.
Qed.
Lemma back_generic nx ny nz u : nx <> 1 ->
  rotate_back nx ny nz u =
  mkV (vx u - (ny * ny + nz * nz) / (1 - nx) * vx u + ny * vy u + nz * vz u)
      (- ny * vx u + (1 - ny * ny / (1 - nx)) * vy u - ny * nz / (1 - nx) * vz u)
      (- nz * vx u - ny * nz / (1 - nx) * vy u + (1 - nz * nz / (1 - nx)) * vz u).
Proof.
  intros H. unfold rotate_back. rewrite rotation_generic by exact H.
  unfold m3_transpose, m3_apply. cbn [a11 a12 a13 a21 a22 a23 a31 a32 a33]. toR. f_equal; ring.
Qed.
Lemma back_opposite ny nz u : rotate_back 1 ny nz u = mkV (- vx u) (vy u) (- vz u).
Proof.
  unfold rotate_back. rewrite rotation_opposite. unfold m3_transpose, m3_apply. cbn [a11 a12 a13 a21 a22 a23 a31 a32 a33]. toR. f_equal; ring.
Qed.
(** with a unit normal: 1 - nx divides ny^2 + nz^2 *)
Lemma unit_split nx ny nz : is_unit (mkV nx ny nz) -> nx <> 1 -> (ny * ny + nz * nz) / (1 - nx) = 1 + nx.
Proof. unfold is_unit, vdot. cbn [vx vy vz]. intros H Hn. replace (ny * ny + nz * nz) with ((1 - nx) * (1 + nx)) by lra. field. lra. Qed.

Lemma frame_normal nx ny nz : is_unit (mkV nx ny nz) -> frame nx ny nz (mkV (- nx) (- ny) (- nz)) = mkV 1 0 0.
Proof.
  intros H. destruct (Req_dec nx 1) as [->|Hn].
  - unfold is_unit, vdot in H. cbn [vx vy vz] in H. assert (ny = 0) by nra. assert (nz = 0) by nra. subst.
    rewrite frame_opposite. cbn [vx vy vz]. f_equal; ring.
  - rewrite frame_generic by exact Hn. cbn [vx vy vz]. pose proof (unit_split _ _ _ H Hn) as Hs.
    unfold is_unit, vdot in H. cbn [vx vy vz] in H. f_equal.
    + rewrite Hs. nra.
    + transitivity (- ny * (1 + nx - (ny * ny + nz * nz) / (1 - nx))); [field; lra|rewrite Hs; ring].
    + transitivity (- nz * (1 + nx - (ny * ny + nz * nz) / (1 - nx))); [field; lra|rewrite Hs; ring].
Qed.
Lemma frame_dot nx ny nz u w : is_unit (mkV nx ny nz) -> vdot (frame nx ny nz u) (frame nx ny nz w) = vdot u w.
Proof.
  intros H. destruct (Req_dec nx 1) as [->|Hn].
  - rewrite !frame_opposite. unfold vdot. cbn [vx vy vz]. ring.
  - rewrite !frame_generic by exact Hn. pose proof (unit_split _ _ _ H Hn) as Hs. rewrite Hs.
    unfold is_unit, vdot in *. cbn [vx vy vz] in *.
    set (k := / (1 - nx)). assert (Hk : k * (1 - nx) = 1) by (unfold k; field; lra).
    unfold Rdiv. fold k. assert (Hy : ny * ny = 1 - nx * nx - nz * nz) by lra.
    assert (Hkk : k * (ny * ny + nz * nz) = 1 + nx) by (rewrite Hy; transitivity (k * (1 - nx) * (1 + nx)); [ring|rewrite Hk; ring]).
    destruct u as [u1 u2 u3], w as [w1 w2 w3]. cbn [vx vy vz].
    assert (E1 : nz * nz * k = 1 + nx - ny * ny * k) by lra.
    set (P := ny * ny * k) in *. 
    replace (nz * nz * k) with (1 + nx - P) by lra.
    set (Q := ny * nz * k).
    assert (HQ : Q * Q = P * (1 + nx - P)). { rewrite <- E1. unfold Q, P. ring. }
    assert (HyP : ny * ny = P * (1 - nx)). { unfold P. transitivity (ny * ny * (k * (1 - nx))); [rewrite Hk; ring|ring]. }
    assert (HyQ : ny * nz = Q * (1 - nx)). { unfold Q. transitivity (ny * nz * (k * (1 - nx))); [rewrite Hk; ring|ring]. }
    assert (HzP : nz * nz = (1 + nx - P) * (1 - nx)). { rewrite <- E1. transitivity (nz * nz * (k * (1 - nx))); [rewrite Hk; ring|ring]. }
    assert (HnQ : ny * Q = nz * P). { unfold Q, P. ring. }
    assert (HzQ : nz * Q = ny * (1 + nx - P)). { rewrite <- E1. unfold Q. ring. }
    transitivity (u1 * w1 * (nx * nx + ny * ny + nz * nz) + u2 * w2 * (ny * ny + (1 - P) * (1 - P) + Q * Q)
       + u3 * w3 * (nz * nz + Q * Q + (1 - (1 + nx - P)) * (1 - (1 + nx - P)))
       + (u1 * w2 + u2 * w1) * (nx * ny + ny * (1 - P) - nz * Q)
       + (u1 * w3 + u3 * w1) * (nx * nz - ny * Q + nz * (1 - (1 + nx - P)))
       + (u2 * w3 + u3 * w2) * (ny * nz - (1 - P) * Q - Q * (1 - (1 + nx - P)))); [ring|].
    rewrite HzQ, HnQ, HQ, HyP, HyQ. rewrite HzP. ring_simplify. ring.
Qed.
Lemma frame_back nx ny nz u : is_unit (mkV nx ny nz) -> rotate_back nx ny nz (frame nx ny nz u) = u.
Proof.
  intros H. destruct (Req_dec nx 1) as [->|Hn].
  - rewrite frame_opposite, back_opposite. destruct u as [u1 u2 u3]. cbn [vx vy vz]. f_equal; ring.
  - rewrite frame_generic, back_generic by exact Hn. pose proof (unit_split _ _ _ H Hn) as Hs. rewrite !Hs.
    destruct u as [u1 u2 u3]. cbn [vx vy vz].
    set (k := / (1 - nx)). assert (Hk : k * (1 - nx) = 1) by (unfold k; field; lra). unfold Rdiv in *. fold k. fold k in Hs.
    assert (E1 : nz * nz * k = 1 + nx - ny * ny * k) by lra.
    set (P := ny * ny * k) in *. replace (nz * nz * k) with (1 + nx - P) by lra. set (Q := ny * nz * k).
    assert (HQ : Q * Q = P * (1 + nx - P)). { rewrite <- E1. unfold Q, P. ring. }
    assert (HyP : ny * ny = P * (1 - nx)). { unfold P. transitivity (ny * ny * (k * (1 - nx))); [rewrite Hk; ring|ring]. }
    assert (HyQ : ny * nz = Q * (1 - nx)). { unfold Q. transitivity (ny * nz * (k * (1 - nx))); [rewrite Hk; ring|ring]. }
    assert (HzP : nz * nz = (1 + nx - P) * (1 - nx)). { rewrite <- E1. transitivity (nz * nz * (k * (1 - nx))); [rewrite Hk; ring|ring]. }
    assert (HnQ : ny * Q = nz * P). { unfold Q, P. ring. }
    assert (HzQ : nz * Q = ny * (1 + nx - P)). { rewrite <- E1. unfold Q. ring. }
    f_equal.
    + transitivity (u1 * (nx * nx + ny * ny + nz * nz) + u2 * (nx * ny + ny * (1 - P) - nz * Q) + u3 * (nx * nz - ny * Q + nz * (P - nx))); [ring|].
      rewrite HzQ, HnQ, HyP, HzP. ring.
    + transitivity (u1 * (nx * ny + ny * (1 - P) - nz * Q) + u2 * (ny * ny + (1 - P) * (1 - P) + Q * Q) + u3 * (ny * nz - (1 - P) * Q - Q * (P - nx))); [ring|].
      rewrite HzQ, HQ, HyP, HyQ. ring.
    + transitivity (u1 * (nx * nz - ny * Q + nz * (P - nx)) + u2 * (ny * nz - (1 - P) * Q - Q * (P - nx)) + u3 * (nz * nz + Q * Q + (P - nx) * (P - nx))); [ring|].
      rewrite HnQ, HQ, HyQ, HzP. ring.
Qed.
Lemma back_is_frame nx ny nz u : is_unit (mkV nx ny nz) -> rotate_back nx ny nz u = frame nx (- ny) (- nz) u.
Proof.
  intros H. destruct (Req_dec nx 1) as [->|Hn]; [rewrite back_opposite, frame_opposite; reflexivity|].
  rewrite back_generic, frame_generic by exact Hn. f_equal; field; lra.
Qed.
Lemma flip_unit nx ny nz : is_unit (mkV nx ny nz) -> is_unit (mkV nx (- ny) (- nz)).
Proof. unfold is_unit, vdot. cbn. intros. lra. Qed.
Lemma back_frame nx ny nz u : is_unit (mkV nx ny nz) -> frame nx ny nz (rotate_back nx ny nz u) = u.
Proof.
  intros H. rewrite back_is_frame by exact H. pose proof (frame_back nx (- ny) (- nz) u (flip_unit _ _ _ H)) as E.
  rewrite back_is_frame in E by (apply flip_unit; exact H). rewrite !Ropp_involutive in E. exact E.
Qed.
Lemma back_dot nx ny nz u w : is_unit (mkV nx ny nz) -> vdot (rotate_back nx ny nz u) (rotate_back nx ny nz w) = vdot u w.
Proof. intros H. rewrite !back_is_frame by exact H. apply frame_dot, flip_unit, H. Qed.
Lemma back_linear nx ny nz a u w : is_unit (mkV nx ny nz) ->
  rotate_back nx ny nz (vscale a (vplus u w)) = vscale a (vplus (rotate_back nx ny nz u) (rotate_back nx ny nz w)).
Proof.
  intros H. destruct (Req_dec nx 1) as [->|Hn].
  - rewrite !back_opposite. unfold vscale, vplus. cbn [vx vy vz]. f_equal; ring.
  - rewrite !back_generic by exact Hn. unfold vscale, vplus. cbn [vx vy vz]. f_equal; field; lra.
Qed.
Lemma frame_x nx ny nz u : is_unit (mkV nx ny nz) -> vx (frame nx ny nz u) = - vdot u (mkV nx ny nz).
Proof.
  intros H. transitivity (vdot (frame nx ny nz u) (frame nx ny nz (mkV (- nx) (- ny) (- nz)))).
  - rewrite frame_normal by exact H. unfold vdot. cbn [vx vy vz]. ring.
  - rewrite frame_dot by exact H. unfold vdot. cbn [vx vy vz]. ring.
Qed.

Definition delta : R := 1 / 1000000000.
Definition nudge : Vector R := mkV delta (- delta) 0.
Lemma delta_lit : nlit 1 (-9) = delta.
Proof. change (@nlit R NumR) with Rlit. unfold Rlit, delta. reflexivity. Qed.
Definition vlen (v : Vector R) : R := sqrt (vdot v v).

Lemma rotate_value nx ny nz u :
  rotate_given_surface_normal nx ny nz u =
  if Rltb 0 (vx (frame nx ny nz u) + delta)
  then Ok (vscale (/ vlen (vplus (frame nx ny nz u) nudge)) (vplus (frame nx ny nz u) nudge)) else Panic AssertFail.
Proof.
  unfold rotate_given_surface_normal. fold (frame nx ny nz u). rewrite delta_lit. cbv zeta. rewrite !Rpowf_2.
  change (nlt (nZ 0) (vx (frame nx ny nz u) +! delta)) with (Rltb (nZ 0) (vx (frame nx ny nz u) + delta)). rewrite nZ_R.
  destruct (Rltb 0 (vx (frame nx ny nz u) + delta)); [|reflexivity]. cbn [rassert bind]. f_equal.
  set (f := frame nx ny nz u). unfold vlen, vdot, vscale, vplus, nudge. cbn [vx vy vz]. toR.
  replace (vz f + 0) with (vz f) by ring. replace (vy f + - delta) with (vy f - delta) by ring.
  f_equal; unfold Rdiv; ring.
Qed.
Lemma vlen_pos v : 0 < vx v -> 0 < vlen v.
Proof. intros H. apply sqrt_lt_R0. unfold vdot. nra. Qed.
Lemma vdot_scale a v w : vdot (vscale a v) (vscale a w) = a * a * vdot v w.
Proof. unfold vdot, vscale. cbn. ring. Qed.
Lemma vdot_nonneg v : 0 <= vdot v v.
Proof. unfold vdot. nra. Qed.
Lemma vlen_sq v : vlen v * vlen v = vdot v v.
Proof. apply sqrt_sqrt, vdot_nonneg. Qed.
Lemma cauchy u w : vdot u w * vdot u w <= vdot u u * vdot w w.
Proof.
  unfold vdot. destruct u as [a b c], w as [d e f]. cbn.
  pose proof (Rle_0_sqr (a * e - b * d)). pose proof (Rle_0_sqr (a * f - c * d)). pose proof (Rle_0_sqr (b * f - c * e)).
  unfold Rsqr in *. nra.
Qed.
(** normalising a slightly perturbed unit vector *)
Lemma normalise_near u e : is_unit u -> vdot e e <= 2 * delta * delta -> 0 < vlen (vplus u e) ->
  vdist u (vscale (/ vlen (vplus u e)) (vplus u e)) <= 3 * delta.
Proof.
  intros Hu He Hl. set (L := vlen (vplus u e)) in *.
  assert (HLL : L * L = 1 + 2 * vdot u e + vdot e e).
  { unfold L. rewrite vlen_sq. unfold is_unit in Hu. rewrite <- Hu. unfold vdot, vplus. cbn. ring. }
  pose proof (cauchy u e) as Hc. unfold is_unit in Hu. rewrite Hu in Hc. pose proof (vdot_nonneg e) as He0.
  set (d := vdot u e) in *. set (s := vdot e e) in *.
  assert (Hdel : delta = 1 / 1000000000) by reflexivity.
  assert (Hd : Rabs d <= sqrt 2 * delta).
  { apply Rsqr_incr_0_var; [|apply Rmult_le_pos; [apply sqrt_pos|lra]]. rewrite <- Rsqr_abs. unfold Rsqr.
    replace (sqrt 2 * delta * (sqrt 2 * delta)) with (sqrt 2 * sqrt 2 * (delta * delta)) by ring. rewrite sqrt_sqrt by lra. lra. }
  assert (H2 : sqrt 2 <= 15 / 10). { rewrite <- (sqrt_square (15 / 10)) by lra. apply sqrt_le_1; lra. }
  assert (Hd' : - (15 / 10 * delta) <= d <= 15 / 10 * delta). { assert (sqrt 2 * delta <= 15 / 10 * delta) by (apply Rmult_le_compat_r; lra).
    pose proof (Rle_abs d). pose proof (Rle_abs (- d)) as Ho. rewrite Rabs_Ropp in Ho. lra. }
  unfold vdist. rewrite <- (sqrt_square (3 * delta)) by lra. apply sqrt_le_1_alt.
  assert (E : vdot (vminus (vscale (/ L) (vplus u e)) u) (vminus (vscale (/ L) (vplus u e)) u) = 2 - 2 * (1 + d) / L).
  { transitivity (vdot (vplus u e) (vplus u e) / (L * L) - 2 * (vdot u u + d) / L + vdot u u).
    - unfold d, vdot, vminus, vscale, vplus. cbn. field. lra.
    - rewrite <- (vlen_sq (vplus u e)). fold L. rewrite Hu. field. lra. }
  rewrite E.
  assert (Hkey : (2 - 9 * (delta * delta)) * L <= 2 * (1 + d)).
  { assert (HL2 : L <= 1 + d + s / 2).
    { assert (0 <= 1 + d + s / 2) by lra. apply Rsqr_incr_0_var; [|assumption]. unfold Rsqr. rewrite HLL.
      pose proof (Rle_0_sqr (d + s / 2)) as Hq. unfold Rsqr in Hq. lra. }
    assert (Hs1 : s <= 2 * (delta * delta)) by lra.
    assert (0 < delta * delta) by nra.
    assert (9 * (delta * delta) * (99/100) <= 9 * (delta * delta) * L).
    { apply Rmult_le_compat_l; [lra|]. apply Rsqr_incr_0_var; [|lra]. unfold Rsqr. rewrite HLL. lra. }
    lra. }
  apply Rmult_le_reg_r with L; [exact Hl|]. replace ((2 - 2 * (1 + d) / L) * L) with (2 * L - 2 * (1 + d)) by (field; lra). lra.
Qed.
Lemma nudge_len : vdot nudge nudge = 2 * delta * delta.
Proof. unfold vdot, nudge. cbn. ring. Qed.
