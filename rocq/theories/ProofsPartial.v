(** * ProofsPartial.v - directions in exact arithmetic with undefined values *)
From Coq Require Import ZArith List Bool Reals Lra Psatz.
From Verif Require Import Num NumR NumO ModelTypes ModelConsts ModelParticle ModelInteractions ModelGeometry ModelMaterial ModelBca
  Spec SpecPartial ProofsBase ProofsBca ProofsStep.
Import ListNotations.
Open Scope R_scope.
#[local] Existing Instance NumO.

Definition good := unit_or_undefined.

Lemma sqrt_dom a : on (Rleb 0) sqrt (Some a) = (if Rle_dec 0 a then Some (sqrt a) else None).
Proof. cbn. unfold Rleb. destruct (Rle_dec 0 a); reflexivity. Qed.
Lemma none_r f x : lift2 f x None = None.
Proof. destruct x; reflexivity. Qed.
Lemma Odiv_ok a b : b <> 0 -> Odiv (Some a) (Some b) = Some (a / b).
Proof. intros H. cbn. destruct (Req_EM_T b 0); [contradiction|reflexivity]. Qed.
Lemma opow2 a : Opowi (Some a) 2 = Some (a * a).
Proof. unfold Opowi. cbn [Z.ltb Z.compare andb]. rewrite <- npowi2_R. reflexivity. Qed.

(** normalising gives a unit vector or nothing *)
Lemma normalised_good (x y z : option R) :
  good (mkV (x /! nsqrt (x *! x +! y *! y +! z *! z)) (y /! nsqrt (x *! x +! y *! y +! z *! z)) (z /! nsqrt (x *! x +! y *! y +! z *! z)))%num.
Proof.
  unfold good, unit_or_undefined, undefined_vector.
  destruct x as [a|], y as [b|], z as [c|]; try (right; reflexivity); try (right; cbn; reflexivity).
  cbn [nadd nmul nsqrt ndiv NumO lift2]. rewrite sqrt_dom. destruct (Rle_dec 0 (a * a + b * b + c * c)) as [H|H]; [|right; reflexivity].
  cbn [Odiv]. destruct (Req_EM_T (sqrt (a * a + b * b + c * c)) 0) as [E|E]; [right; reflexivity|].
  left. do 3 eexists. split; [reflexivity|].
  pose proof (sqrt_sqrt _ H) as S. set (s := sqrt _) in *.
  transitivity ((a * a + b * b + c * c) / (s * s)); [field; exact E|]. rewrite <- S. field. exact E.
Qed.
Lemma normalize_good (v : Vector (option R)) : good (v_normalize v).
Proof. apply (normalised_good (vx v) (vy v) (vz v)). Qed.
Lemma rotate_good psi phi (p : Particle (option R)) : good (p_dir (rotate psi phi p)).
Proof. unfold rotate, rotate_dir. cbn [p_dir set_p_dir]. apply normalize_good. Qed.

Lemma refraction_good n Es (p : Particle (option R)) : good n -> good (p_dir p) -> good (p_dir (surface_refraction n Es p)).
Proof.
  intros Hn Hd. unfold surface_refraction. cbn [p_dir set_p_E set_p_dir].
  destruct Hd as [(a & b & c & Ed & Hd)|Ed].
  2:{ right. rewrite Ed. unfold v_dot. cbn [vx vy vz undefined_vector nadd nmul NumO]. rewrite !none_r. reflexivity. }
  destruct Hn as [(x & y & z & En & Hn)|En].
  2:{ right. rewrite En. unfold v_dot. cbn [vx vy vz undefined_vector nadd nmul NumO]. rewrite !none_r. reflexivity. }
  rewrite Ed, En. unfold v_dot. cbn [vx vy vz].
  destruct (p_E p) as [E|]; [|right; reflexivity]. destruct Es as [Es|]; [|right; reflexivity].
  cbn [nadd nmul nsqrt ndiv nneg npowi NumO lift2 lift1 option_map]. rewrite opow2. cbn [lift2]. set (t := a * x + b * y + c * z).
  cbn [Odiv]. destruct (Req_EM_T (E + Es) 0) as [E0|E0]; [right; reflexivity|].
  rewrite !sqrt_dom. destruct (Rle_dec 0 (E / (E + Es))) as [H1|H1]; [|right; reflexivity].
  destruct (Rle_dec 0 E) as [H2|H2]; [|right; reflexivity].
  destruct (Rle_dec 0 (E * (t * t) + Es)) as [H3|H3]; [|right; reflexivity].
  destruct (Rle_dec 0 (E + Es)) as [H4|H4]; [|right; reflexivity].
  cbn [lift1 option_map lift2 Odiv]. destruct (Req_EM_T (sqrt (E + Es)) 0) as [S0|S0]; [right; reflexivity|].
  left. do 3 eexists. split; [reflexivity|].
  rewrite sqrt_div by lra.
  pose proof (sqrt_sqrt _ H2) as Q2. pose proof (sqrt_sqrt _ H3) as Q3. pose proof (sqrt_sqrt _ H4) as Q4.
  set (e := sqrt E) in *. set (r := sqrt (E * (t * t) + Es)) in *. set (s := sqrt (E + Es)) in *.
  replace ((e / s * a + (- e * t + r) / s * x) * (e / s * a + (- e * t + r) / s * x) +
           (e / s * b + (- e * t + r) / s * y) * (e / s * b + (- e * t + r) / s * y) +
           (e / s * c + (- e * t + r) / s * z) * (e / s * c + (- e * t + r) / s * z))
    with ((e * e * (a * a + b * b + c * c) + 2 * e * (- e * t + r) * (a * x + b * y + c * z) + (- e * t + r) * (- e * t + r) * (x * x + y * y + z * z)) / (s * s))
    by (field; exact S0).
  fold t. rewrite Hd, Hn, Q4.
  replace (e * e * 1 + 2 * e * (- e * t + r) * t + (- e * t + r) * (- e * t + r) * 1) with (e * e - (e * e) * (t * t) + r * r) by ring.
  rewrite Q2, Q3. field. lra.
Qed.

Lemma toward_good (dx dy dz mag : option R) : mag = nsqrt (dx *! dx +! dy *! dy +! dz *! dz)%num ->
  good (mkV (dx /! mag) (dy /! mag) (dz /! mag))%num /\
  good (mkV ((-! dx) /! mag) ((-! dy) /! mag) ((-! dz) /! mag))%num.
Proof.
  intros ->. split; [apply normalised_good|].
  replace (dx *! dx +! dy *! dy +! dz *! dz)%num with ((-! dx) *! (-! dx) +! (-! dy) *! (-! dy) +! (-! dz) *! (-! dz))%num; [apply normalised_good|].
  destruct dx, dy, dz; cbn; try reflexivity. f_equal. ring.
Qed.
Lemma reflection_good (d : Vector (option R)) dx dy dz mag :
  good d -> mag = nsqrt (dx *! dx +! dy *! dy +! dz *! dz)%num ->
  let costheta := (dx *! vx d /! mag +! dy *! vy d /! mag +! dz *! vz d /! mag)%num in
  good (mkV (nZ (-2) *! costheta *! dx /! mag +! vx d) (nZ (-2) *! costheta *! dy /! mag +! vy d) (nZ (-2) *! costheta *! dz /! mag +! vz d))%num.
Proof.
  intros [(a & b & c & -> & H)| ->] Em; cbv zeta.
  2:{ right. cbn [vx vy vz undefined_vector nadd nmul NumO]. rewrite !none_r. reflexivity. }
  cbn [vx vy vz]. destruct dx as [x|], dy as [y|], dz as [z|]; cbn [nadd nmul nsqrt NumO lift2] in Em; try (subst mag; right; reflexivity).
  rewrite sqrt_dom in Em. destruct (Rle_dec 0 (x * x + y * y + z * z)) as [Hs|]; [|subst mag; right; reflexivity]. subst mag.
  unfold nZ. cbn [nadd nmul ndiv nlit NumO lift2].
  destruct (Req_EM_T (sqrt (x * x + y * y + z * z)) 0) as [E|E].
  { right. unfold Odiv. destruct (Req_EM_T (sqrt (x * x + y * y + z * z)) 0); [reflexivity|contradiction]. }
  rewrite !(Odiv_ok _ _ E). cbn [lift2]. rewrite !(Odiv_ok _ _ E). cbn [lift2].
  left. do 3 eexists. split; [reflexivity|].
  pose proof (sqrt_sqrt _ Hs) as Q. set (s := sqrt _) in *.
  replace (Rlit (-2) 0) with (-2) by (unfold Rlit; cbn; lra).
  set (t := x * a / s + y * b / s + z * c / s).
  assert (T : x * a + y * b + z * c = s * t) by (unfold t; field; exact E).
  transitivity ((a * a + b * b + c * c) + 4 * t * t * ((x * x + y * y + z * z) / (s * s)) - 4 * t * ((x * a + y * b + z * c) / s)).
  - field. exact E.
  - rewrite T, <- Q, H. field. exact E.
Qed.

Lemma surface_good mat (p p' : Particle (option R)) : good (p_dir p) -> surface_binding_energy mat p = Ok p' ->
  good (p_dir p') /\ p_dir_old p' = p_dir_old p.
Proof.
  intros Hg H. split; [|rewrite (surface_frame _ _ _ H); reflexivity].
  unfold surface_binding_energy in H.
  apply bind_ok in H. destruct H as (Es & _ & H). apply bind_ok in H. destruct H as (now & _ & H).
  apply bind_ok in H. destruct H as (old & _ & H).
  destruct (now && negb old).
  - destruct (p_backreflected p); [injection H as <-; exact Hg|].
    apply bind_ok in H. destruct H as ([[x2 y2] z2] & _ & H).
    destruct (mat_surface_binding_model mat); injection H as <-; first [exact Hg|apply refraction_good; [refine (proj1 (toward_good _ _ _ _ eq_refl))|exact Hg]].
  - destruct (negb now && old); [|injection H as <-; exact Hg].
    apply bind_ok in H. destruct H as ([[x2 y2] z2] & _ & H).
    match type of H with (if ?b then _ else _) = _ => destruct b end; [|injection H as <-; exact Hg].
    match type of H with (if ?b then _ else _) = _ => destruct b end.
    + destruct (mat_surface_binding_model mat); injection H as <-; first [exact Hg|apply refraction_good; [refine (proj2 (toward_good _ _ _ _ eq_refl))|exact Hg]].
    + injection H as <-. cbn [p_dir set_p_backreflected set_p_dir]. apply reflection_good; [exact Hg|reflexivity].
Qed.
Lemma boundary_good mat (p p' : Particle (option R)) : good (p_dir p) -> boundary_condition_planar mat p = Ok p' ->
  good (p_dir p') /\ p_dir_old p' = p_dir_old p.
Proof.
  intros Hg H. unfold boundary_condition_planar in H. apply bind_ok in H. destruct H as (b & _ & H).
  set (p1 := if negb _ then _ else _) in H.
  assert (K1 : p_dir p1 = p_dir p /\ p_dir_old p1 = p_dir_old p).
  { unfold p1, update_trajectory_tracker. destruct (negb _); [destruct (p_track_trajectories _)|]; split; reflexivity. }
  set (p2 := if _ && _ && _ then _ else _) in H.
  assert (K2 : p_dir p2 = p_dir p /\ p_dir_old p2 = p_dir_old p).
  { destruct K1 as (A & B). rewrite <- A, <- B. unfold p2, update_trajectory_tracker. destruct (_ && _ && _); [destruct (p_track_trajectories _)|]; split; reflexivity. }
  destruct K2 as (A & B). destruct (negb (p_stopped p2) && negb (p_left p2)).
  - apply surface_good in H; [|rewrite A; exact Hg]. destruct H as (H1 & H2). split; [exact H1|congruence].
  - injection H as <-. rewrite A, B. auto.
Qed.
Definition well_directed (p : Particle (option R)) : Prop := good (p_dir p) /\ good (p_dir_old p).
Lemma collision_good build mat options k bcg cs rng n cs' n' :
  (good (p_dir (cs_particle_1 cs)) /\ Forall well_directed (cs_particles cs)) ->
  collision_step build mat options k bcg cs rng n = Ok (cs', n') ->
  good (p_dir (cs_particle_1 cs')) /\ Forall well_directed (cs_particles cs').
Proof.
  intros (H1 & H2) H. apply collision_step_inv in H. destruct H as (i & p2 & barrier & _ & _ & [(_ & ->)|(_ & r & bulk & keep & _ & _ & H)]); [auto|].
  cbv zeta in H. destruct H as (_ & ->). cbn [cs_particle_1 cs_particles]. split.
  - unfold projectile_after. destruct (_ && _); cbn [p_dir set_p_number_collision_events]; apply rotate_good.
  - destruct keep; [|exact H2]. constructor; [|exact H2]. unfold recoil_after.
    set (q := rotate _ _ _). assert (G : good (p_dir q)) by apply rotate_good. split; cbn [p_dir p_dir_old set_p_dir_old]; [exact G|].
    destruct (p_dir q); exact G.
Qed.
Lemma step_good build mat options p particles rng n p' particles' n' :
  active p -> well_directed p -> Forall well_directed particles ->
  bca_step build mat options p particles rng n = Ok ((p', particles'), n') ->
  well_directed p' /\ Forall well_directed particles'.
Proof.
  intros _ (Hp & _) Hs H. apply bca_step_inv in H.
  destruct H as (p0 & bcgs & n1 & cs & bcg0 & q & dist & q' & loss & Hd & Hc & _ & Ha & Hsub & Hb & ->).
  apply determine_frame in Hd.
  assert (Hp0 : good (p_dir p0)) by (rewrite Hd; destruct (p_first_step p); exact Hp).
  assert (C : good (p_dir (cs_particle_1 cs)) /\ Forall well_directed (cs_particles cs)).
  { revert Hc. apply (collision_loop_invariant (fun cs => good (p_dir (cs_particle_1 cs)) /\ Forall well_directed (cs_particles cs))).
    - intros. eapply collision_good; eassumption.
    - split; assumption. }
  destruct C as (C1 & C2). split; [|exact C2].
  assert (Q : good (p_dir q) /\ p_dir_old q = p_dir q).
  { unfold advance in Ha. pose proof (f_equal fst Ha) as Ha'. cbn [fst] in Ha'. rewrite <- Ha'. clear Ha Ha'.
    set (c := cs_particle_1 cs) in *. cbv zeta. set (c' := if (p_Ec c <! p_E c)%num then _ else _).
    assert (K : p_dir c' = p_dir c) by (unfold c', update_trajectory_tracker; destruct (p_Ec c <! p_E c)%num; [destruct (p_track_trajectories c)|]; reflexivity).
    cbn [p_dir p_dir_old set_p_dir_old set_p_asymptotic_deflection set_p_pos set_p_pos_old]. rewrite K. split; [exact C1|destruct (p_dir c); reflexivity]. }
  destruct Q as (Q1 & Q2). apply subtract_frame in Hsub. destruct Hsub as (E & ->).
  assert (K : p_dir (update_energy_loss_tracker options (cs_total_energy_lost_to_recoils cs) loss (set_p_E E q)) = p_dir q /\
              p_dir_old (update_energy_loss_tracker options (cs_total_energy_lost_to_recoils cs) loss (set_p_E E q)) = p_dir_old q).
  { unfold update_energy_loss_tracker. destruct (_ && _); split; reflexivity. }
  destruct K as (K1 & K2). apply boundary_good in Hb; [|rewrite K1; exact Q1]. destruct Hb as (B1 & B2). split; [exact B1|].
  rewrite B2, K2, Q2. exact Q1.
Qed.
Lemma run_good build mat options fuel ion rng n out n' :
  good (p_dir ion) -> good (p_dir_old ion) ->
  single_ion_bca build mat options fuel ion rng n = Ok (out, n') -> Forall well_directed out.
Proof.
  intros H1 H2. apply (run_invariant well_directed); [|split; assumption].
  intros. eapply step_good; eassumption.
Qed.
Lemma accepted_good i o (p : Particle (option R)) : from_input i o = Ok p -> has_length_one (p_dir p) /\ p_dir_old p = p_dir p.
Proof.
  intros H. unfold from_input in H. apply bind_ok in H. destruct H as (u & Hu & H). apply rassert_ok in Hu.
  apply bind_ok in H. destruct H as (u' & _ & H). injection H as <-. cbn [p_dir p_dir_old]. split; [|reflexivity].
  destruct (normalised_good (pi_ux i) (pi_uy i) (pi_uz i)) as [G|G]; [exact G|].
  exfalso. pose proof (f_equal vx G) as K. cbn [vx undefined_vector] in K. rewrite K in Hu. discriminate Hu.
Qed.
