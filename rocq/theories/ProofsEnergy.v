(** * ProofsEnergy.v - energy bookkeeping of an iteration and of a run (exact arithmetic) *)
From Coq Require Import ZArith List Bool Reals Lra Lia.
From Verif Require Import Num NumR ModelTypes ModelConsts ModelParticle ModelInteractions ModelGeometry
  ModelMaterial ModelBca Spec SpecR ProofsBase ProofsBca ProofsStep ProofsKinematics ProofsSurface ProofsFlight.
Import ListNotations.
Open Scope R_scope.

(** ** electronic stopping *)
Lemma stopping_inside mat options (p : Particle R) dist x0 scZ sci p' loss :
  subtract_electronic_stopping_energy mat options p dist x0 scZ sci = Ok (p', loss) ->
  in_material mat (p_pos p) = true ->
  electronic_loss mat options p dist x0 scZ sci = Ok loss /\
  p' = set_p_E (Rmax 0 (p_E p - loss)) p.
Proof.
  unfold subtract_electronic_stopping_energy, in_material, mat_inside. intros H Hin.
  apply bind_ok in H. destruct H as (_ & _ & H). rewrite Hin in H.
  apply bind_ok in H. destruct H as (loss' & Hl & H).
  apply bind_ok in H. destruct H as (_ & _ & H). toR_in H. cbn [p_E set_p_E] in H.
  change (p_E p + - loss') with (p_E p - loss') in H.
  destruct (p_E p - loss' <! IZR 0) eqn:Hlt; bool_R; inv_ok; (split; [exact Hl|]).
  - rewrite Rmax_left by lra. destruct p; reflexivity.
  - rewrite Rmax_right by lra. reflexivity.
Qed.
Lemma stopping_outside mat options (p : Particle R) dist x0 scZ sci p' loss :
  subtract_electronic_stopping_energy mat options p dist x0 scZ sci = Ok (p', loss) ->
  in_material mat (p_pos p) = false -> p' = p /\ loss = 0.
Proof.
  unfold subtract_electronic_stopping_energy, in_material, mat_inside. intros H Hin.
  apply bind_ok in H. destruct H as (_ & _ & H). rewrite Hin in H. rewrite nZ_R in H. inv_ok. auto.
Qed.

(** ** energy over the collisions of an iteration *)
Lemma collision_step_energy build (mat : Material R) options k bcg cs rng n cs' n' :
  collision_step build mat options k bcg cs rng n = Ok (cs', n') ->
  p_E (cs_particle_1 cs') + cs_total_energy_lost_to_recoils cs' =
  p_E (cs_particle_1 cs) + cs_total_energy_lost_to_recoils cs.
Proof.
  intros H. apply collision_step_inv in H.
  destruct H as (i & p2 & b & _ & _ & [(_ & ->)|(_ & r & bulk & keep & _ & _ & _ & ->)]); [reflexivity|].
  cbn [cs_particle_1 cs_total_energy_lost_to_recoils].
  unfold projectile_after, rotate. destruct (_ && _); cbn; ring.
Qed.
Lemma collision_loop_energy build (mat : Material R) options bcgs k cs rng n cs' n' :
  collision_loop build mat options k bcgs cs rng n = Ok (cs', n') ->
  p_E (cs_particle_1 cs') + cs_total_energy_lost_to_recoils cs' =
  p_E (cs_particle_1 cs) + cs_total_energy_lost_to_recoils cs.
Proof.
  intros H.
  apply (collision_loop_invariant (fun c => p_E (cs_particle_1 c) + cs_total_energy_lost_to_recoils c =
     p_E (cs_particle_1 cs) + cs_total_energy_lost_to_recoils cs)) with (2 := eq_refl) in H; [exact H|].
  intros k' bcg cs1 rng' m cs2 m' E H'. rewrite <- E. eapply collision_step_energy; exact H'.
Qed.
Lemma step_energy build (mat : Material R) options p particles rng n p' particles' n' :
  active p ->
  bca_step build mat options p particles rng n = Ok ((p', particles'), n') ->
  exists En Ee E1,
    (p_energies p' = if p_incident p && o_track_energy_losses options
                     then p_energies p ++ [mkEL En Ee (vx (p_pos p')) (vy (p_pos p')) (vz (p_pos p'))]
                     else p_energies p) /\
    (in_material mat (p_pos p') = true -> E1 = Rmax 0 (p_E p - En - Ee)) /\
    (in_material mat (p_pos p') = false -> Ee = 0 /\ E1 = p_E p - En) /\
    (in_barrier mat (p_pos p') = in_barrier mat (p_pos p) \/ ~ active p' -> p_E p' = E1).
Proof.
  intros Ha H. pose proof H as Hstep. apply bca_step_states in H; [|exact Ha].
  destruct H as (p0 & bcgs & n1 & cs & bcg0 & dist & q & loss & Hd & Hloop & _ & _ & (qa & Hqa & HEa & Hsub) & _ & Hpo & _ & _ & _ & _ & Haq & Hid & Hb & _).
  pose proof (collision_loop_energy _ _ _ _ _ _ _ _ _ _ Hloop) as HE.
  cbn [cs_particle_1 cs_total_energy_lost_to_recoils] in HE. rewrite nZ_R in HE.
  assert (Hp0 : p_E p0 = p_E p) by (rewrite (determine_frame _ _ _ _ _ _ _ _ Hd); destruct (p_first_step p); reflexivity).
  rewrite Hp0 in HE.
  set (En := cs_total_energy_lost_to_recoils cs) in *.
  assert (Hpp : p_pos p' = p_pos q /\ p_energies p' = p_energies (update_energy_loss_tracker options En loss q)).
  { destruct (loss_tracker_frame options En loss q) as (l & El). rewrite El in Hb |- *.
    pose proof (boundary_ok _ _ _ (Haq : active (set_p_energies l q)) Hb) as (_ & B1 & _ & _ & _ & B2 & _).
    split; [exact B1|exact B2]. }
  destruct Hpp as (Hpp & Hen).
  pose proof (subtract_frame _ _ _ _ _ _ _ _ _ Hsub) as (Eq & Hq).
  assert (Hqe : p_energies q = p_energies p).
  { rewrite Hq. cbn. rewrite Hqa. unfold advance.
    pose proof (collision_loop_ok _ _ _ _ _ _ _ _ _ _ Hloop) as (Hf & _). cbn [cs_particle_1] in Hf.
    assert (p_energies p0 = p_energies p) by (rewrite (determine_frame _ _ _ _ _ _ _ _ Hd); destruct (p_first_step p); reflexivity).
    destruct Hf as (_&_&_&_&_&_&_&_&_&Hes&_).
    unfold update_trajectory_tracker. destruct (_ <! _); [destruct (p_track_trajectories _)|]; cbn; congruence. }
  assert (Hqi : p_incident q = p_incident p) by (symmetry; apply Hid).
  exists En, loss, (p_E q).
  split; [|split; [|split]].
  - rewrite Hen. unfold update_energy_loss_tracker. rewrite Hqi.
    destruct (p_incident p && o_track_energy_losses options); cbn; rewrite ?Hqe, ?Hpp; reflexivity.
  - rewrite Hpp. intros Hin. assert (Hin' : in_material mat (p_pos qa) = true) by (rewrite Hq in Hin; exact Hin).
    destruct (stopping_inside _ _ _ _ _ _ _ _ _ Hsub Hin') as (_ & E). rewrite E. cbn.
    rewrite HEa. f_equal. lra.
  - rewrite Hpp. intros Hin. assert (Hin' : in_material mat (p_pos qa) = false) by (rewrite Hq in Hin; exact Hin).
    destruct (stopping_outside _ _ _ _ _ _ _ _ _ Hsub Hin') as (E & E'). split; [exact E'|].
    rewrite E. rewrite HEa. lra.
  - intros Hcase. destruct (loss_tracker_frame options En loss q) as (l & El). rewrite El in Hb.
    destruct (boundary_cases _ _ _ (Haq : active (set_p_energies l q)) Hb) as [(Hact & Hs & _)|(_ & _ & HE' & _)]; [|exact HE'].
    destruct Hcase as [Hcase|Hcase]; [|contradiction].
    pose proof (surface_inv _ _ _ Hs) as (Es & now & before & _ & Hn & Hbf & Hm).
    cbn in Hn, Hbf. rewrite Hpp in Hcase. rewrite Hpo in Hbf. rewrite Hcase, Hbf in Hn. injection Hn; intros ->.
    destruct now; rewrite Hm; reflexivity.
Qed.

(** ** directions never get longer than one *)
Definition short (d : Vector R) : Prop := vdot d d <= 1.
Lemma normalize_short v : short (v_normalize v).
Proof.
  unfold short, v_normalize, v_magnitude, vdot. toR. cbn [vx vy vz].
  destruct v as [x y z]. cbn [vx vy vz].
  assert (H0 : 0 <= x * x + y * y + z * z).
  { pose proof (Rle_0_sqr x). pose proof (Rle_0_sqr y). pose proof (Rle_0_sqr z). unfold Rsqr in *. lra. }
  pose proof (sqrt_sqrt _ H0) as Hs. set (m := sqrt _) in *. clearbody m.
  destruct (Req_EM_T m 0) as [E|E].
  - assert (Hz : x * x + y * y + z * z = 0) by (rewrite <- Hs, E; ring).
    pose proof (Rle_0_sqr x) as Hx. pose proof (Rle_0_sqr y) as Hy. pose proof (Rle_0_sqr z) as Hzz. unfold Rsqr in *.
    assert (x = 0) by nra. assert (y = 0) by nra. assert (z = 0) by nra. subst. unfold Rdiv. rewrite !Rmult_0_l. lra.
  - replace (x / m * (x / m) + y / m * (y / m) + z / m * (z / m)) with ((x * x + y * y + z * z) / (m * m)) by (field; exact E).
    rewrite <- Hs. replace (m * m / (m * m)) with 1 by (field; exact E). lra.
Qed.
Lemma rotate_short d psi phi : short (rotate_dir d psi phi).
Proof. apply normalize_short. Qed.

Definition unit_or_zero (n : Vector R) : Prop := is_unit n \/ n = mkV 0 0 0.
Lemma vtoward_unit_or_zero a b : unit_or_zero (vtoward a b).
Proof.
  destruct (Req_EM_T (vx a) (vx b)) as [E1|E1]; [destruct (Req_EM_T (vy a) (vy b)) as [E2|E2]; [destruct (Req_EM_T (vz a) (vz b)) as [E3|E3]|]|].
  - right. unfold vtoward, vscale, vminus. cbn. rewrite E1, E2, E3. f_equal; ring.
  - left. apply vtoward_unit. intros ->. apply E3. reflexivity.
  - left. apply vtoward_unit. intros ->. apply E2. reflexivity.
  - left. apply vtoward_unit. intros ->. apply E1. reflexivity.
Qed.
Lemma vdot_nonneg v : 0 <= vdot v v.
Proof. unfold vdot. pose proof (Rle_0_sqr (vx v)). pose proof (Rle_0_sqr (vy v)). pose proof (Rle_0_sqr (vz v)). unfold Rsqr in *. lra. Qed.
Lemma cauchy v w : vdot v w * vdot v w <= vdot v v * vdot w w.
Proof.
  destruct v as [a b d], w as [e f g]. unfold vdot. cbn.
  assert (H : (a*a+b*b+d*d)*(e*e+f*f+g*g) - (a*e+b*f+d*g)*(a*e+b*f+d*g)
           = (a*f-b*e)*(a*f-b*e) + (a*g-d*e)*(a*g-d*e) + (b*g-d*f)*(b*g-d*f)) by ring.
  pose proof (Rle_0_sqr (a*f-b*e)). pose proof (Rle_0_sqr (a*g-d*e)). pose proof (Rle_0_sqr (b*g-d*f)).
  unfold Rsqr in *. lra.
Qed.
Lemma cos_short d n : short d -> unit_or_zero n -> vdot d n * vdot d n <= 1.
Proof.
  intros Hd Hn. pose proof (cauchy d n) as H. unfold short in Hd.
  assert (vdot n n <= 1). { destruct Hn as [Hn| ->]; [unfold is_unit in Hn; lra|unfold vdot; cbn; lra]. }
  pose proof (vdot_nonneg d). pose proof (vdot_nonneg n). nra.
Qed.
Lemma refract_short n d E Es :
  short d -> is_unit n -> 0 <= E -> 0 < E + Es -> 0 <= E * (vdot d n * vdot d n) + Es ->
  short (vplus (vscale (sqrt (E / (E + Es))) d)
               (vscale ((- sqrt E * vdot d n + sqrt (E * (vdot d n * vdot d n) + Es)) / sqrt (E + Es)) n)).
Proof.
  intros Hd Hn HE HEs Hc. unfold short in *. rewrite sqrt_Ediv by assumption.
  pose proof (sqrt_lt_R0 _ HEs) as Hr. pose proof (sqrt_sqrt _ (Rlt_le _ _ HEs)) as Hr2.
  pose proof (sqrt_sqrt _ HE) as He2. pose proof (sqrt_sqrt _ Hc) as Hq2.
  set (c := vdot d n) in *. set (r := sqrt (E + Es)) in *. set (e := sqrt E) in *. set (q := sqrt (E * (c * c) + Es)) in *.
  apply Rmult_le_reg_l with (r * r); [nra|].
  assert (Hnn : vdot n n = 1) by exact Hn.
  apply Rle_trans with (e * e * vdot d d - (e * e) * (c * c) + q * q).
  - right. transitivity (e * e * vdot d d + 2 * e * (- e * c + q) * c + (- e * c + q) * (- e * c + q) * vdot n n).
    + unfold c, vdot, vplus, vscale. cbn. field. lra.
    + rewrite Hnn. ring.
  - rewrite He2, Hq2, Hr2. nra.
Qed.

(** ** the invariant of a run *)
Record energy_ok (p : Particle R) : Prop := {
  eo_E : 0 <= p_E p; eo_m : 0 < p_m p; eo_Es : 0 <= p_Es p; eo_dir : short (p_dir p) }.
(** what the material must satisfy *)
Record physical (mat : Material R) : Prop := {
  ph_m : Forall (fun m => 0 < m) (mat_m mat);
  ph_Es : Forall (fun e => 0 <= e) (mat_Es mat);
  ph_Ec : Forall (fun e => 0 <= e) (mat_Ec mat);
  ph_conc : forall x y z cs, g_get_concentrations (mat_geometry mat) x y z = Ok cs -> Forall (fun c => 0 <= c) cs }.

Lemma weighted_sum_R vs cs : weighted_sum vs cs = Rsum (map (fun vc => fst vc * snd vc) (combine vs cs)).
Proof. unfold weighted_sum, zip. rewrite nsum_R. reflexivity. Qed.
Lemma Rsum_nonneg l : Forall (fun x => 0 <= x) l -> 0 <= Rsum l.
Proof. induction 1 as [|x l Hx _ IH]; simpl; lra. Qed.
Lemma weighted_sum_nonneg vs cs :
  Forall (fun x => 0 <= x) vs -> Forall (fun x => 0 <= x) cs -> 0 <= weighted_sum vs cs.
Proof.
  intros Hv Hc. rewrite weighted_sum_R. apply Rsum_nonneg. revert cs Hc.
  induction Hv as [|v vs Hv _ IH]; intros [|c cs] Hc; simpl; constructor.
  - inversion_clear Hc. simpl. nra.
  - inversion_clear Hc. apply IH. assumption.
Qed.
Lemma surface_energy_nonneg mat (p : Particle R) x y z Es :
  physical mat -> 0 <= p_Es p -> actual_surface_binding_energy mat p x y z = Ok Es -> 0 <= Es.
Proof.
  intros [_ HmEs _ Hconc] Hp H. unfold actual_surface_binding_energy in H.
  apply bind_ok in H. destruct H as (cs & Hcs & H). apply Hconc in Hcs.
  pose proof (weighted_sum_nonneg _ _ HmEs Hcs) as Hw.
  assert (H1 : 0 <= sbe_target mat p cs).
  { unfold sbe_target. destruct (_ ==! _); [rewrite nZ_R; lra|exact Hw]. }
  assert (H2 : 0 <= sbe_average mat p cs).
  { unfold sbe_average. destruct (_ || _); [rewrite nZ_R; lra|]. toR.
    assert (0 < @nlit R NumR 5 (-1)) by (cbn; lra). nra. }
  inv_ok. destruct (mat_surface_binding_model mat) as [[]|[]| | |]; assumption.
Qed.

Lemma collision_step_energy_ok build mat options k bcg cs rng n cs' n' :
  physical mat ->
  energy_ok (cs_particle_1 cs) /\ Forall energy_ok (cs_particles cs) ->
  collision_step build mat options k bcg cs rng n = Ok (cs', n') ->
  energy_ok (cs_particle_1 cs') /\ Forall energy_ok (cs_particles cs').
Proof.
  intros Hph [[HE Hm HEs Hd] Hps] H. apply collision_step_inv in H.
  destruct H as (i & p2 & b & Hc & _ & [(_ & ->)|(_ & r & bulk & keep & Hr & _ & Hk & ->)]); [split; [constructor|]; assumption|].
  cbn [cs_particle_1 cs_particles].
  pose proof (partner_inv _ _ _ _ _ _ _ _ _ Hc) as (_ & _ & _ & _ & _ & _ & Ha & _).
  destruct Ha as (_ & Hmi & HEci & HEsi & _).
  assert (Hm2 : 0 < p_m p2) by (pose proof (ph_m _ Hph) as X; rewrite Forall_forall in X; apply X; eapply nth_error_In; exact Hmi).
  assert (HEs2 : 0 <= p_Es p2) by (pose proof (ph_Es _ Hph) as X; rewrite Forall_forall in X; apply X; eapply nth_error_In; exact HEsi).
  assert (HEc2 : 0 <= p_Ec p2) by (pose proof (ph_Ec _ Hph) as X; rewrite Forall_forall in X; apply X; eapply nth_error_In; exact HEci).
  pose proof (cbc_energy_bounds _ _ _ _ _ _ Hm Hm2 HE Hr) as (T1 & T2 & T3).
  split.
  - unfold projectile_after, rotate.
    destruct (_ && _); constructor; cbn; try assumption; try lra; apply rotate_short.
  - destruct keep; [|exact Hps]. constructor; [|exact Hps].
    apply keep_recoil_true in Hk. destruct Hk as [_ Hk]. bool_R.
    constructor.
    + change (p_Ec (recoil_after bcg r bulk p2)) with (p_Ec p2) in Hk. lra.
    + exact Hm2.
    + exact HEs2.
    + apply rotate_short.
Qed.

Lemma surface_energy_ok mat p p' :
  physical mat -> energy_ok p -> surface_binding_energy mat p = Ok p' -> energy_ok p'.
Proof.
  intros Hph [HE Hm HEs Hd] H. apply surface_inv in H.
  destruct H as (Es & now & before & HEs' & _ & _ & Hmm).
  apply surface_energy_nonneg in HEs'; [|assumption|assumption].
  destruct before, now.
  - subst. constructor; assumption.
  - cbv zeta in Hmm. destruct Hmm as (c & _ & Hmm).
    pose proof (vtoward_unit_or_zero (p_pos p) c) as Hn. set (nn := vtoward (p_pos p) c) in *.
    pose proof (cos_short _ _ Hd Hn) as Hcc. set (ct := vdot (p_dir p) nn) in *.
    assert (Hnu : ct < 0 -> is_unit nn).
    { intros Hlt. destruct Hn as [Hn|Hn]; [exact Hn|]. exfalso. unfold ct in Hlt. rewrite Hn in Hlt.
      unfold vdot in Hlt. cbn in Hlt. lra. }
    destruct Hmm as [(_ & ->)|[(Hlt & HL & ->)|(Hlt & HL & ->)]].
    + constructor; assumption.
    + specialize (Hnu Hlt). destruct (isotropic _).
      * constructor; cbn; try assumption. lra.
      * rewrite surface_refraction_value. rewrite Rmult_assoc in HL.
        assert (HEE : 0 < p_E p + - Es) by nra.
        assert (Hdn : vdot (p_dir p) (vscale (-1) nn) = - ct) by (unfold ct, vdot, vscale; cbn; ring).
        constructor; cbn [p_E p_m p_Es p_dir set_p_E set_p_dir]; try assumption; [lra|].
        apply refract_short; try assumption.
        -- unfold is_unit in *. transitivity (vdot nn nn); [unfold vdot, vscale; cbn; ring|exact Hnu].
        -- rewrite Hdn. replace (- ct * - ct) with (ct * ct) by ring. lra.
    + specialize (Hnu Hlt). constructor; cbn; try assumption. unfold short in *.
      replace (vdot (vplus (p_dir p) (vscale (-2 * ct) nn)) (vplus (p_dir p) (vscale (-2 * ct) nn)))
        with (vdot (p_dir p) (p_dir p) - 4 * ct * ct + 4 * ct * ct * vdot nn nn)
        by (unfold ct, vdot, vplus, vscale; cbn; ring).
      unfold is_unit in Hnu. rewrite Hnu. lra.
  - destruct (p_backreflected p); [subst; constructor; assumption|].
    destruct Hmm as (c & _ & ->).
    pose proof (vtoward_unit_or_zero (p_pos p) c) as Hn. set (nn := vtoward (p_pos p) c) in *.
    destruct (isotropic _); [constructor; cbn; try assumption; lra|].
    rewrite surface_refraction_value.
    constructor; cbn [p_E p_m p_Es p_dir set_p_E set_p_dir]; try assumption; [lra|].
    destruct (Rle_lt_or_eq_dec _ _ HE) as [HEp|HE0].
    + destruct Hn as [Hn|Hn].
      * apply refract_short; try assumption; [lra|].
        pose proof (Rle_0_sqr (vdot (p_dir p) nn)) as Hs. unfold Rsqr in Hs. nra.
      * rewrite Hn. unfold short in *.
        assert (Hq : 0 <= p_E p / (p_E p + Es) <= 1).
        { split.
          - unfold Rdiv. apply Rmult_le_pos; [lra|]. apply Rlt_le, Rinv_0_lt_compat; lra.
          - apply Rmult_le_reg_r with (p_E p + Es); [lra|]. unfold Rdiv. rewrite Rmult_assoc, Rinv_l by lra. lra. }
        pose proof (sqrt_sqrt _ (proj1 Hq)) as Hs. set (sq := sqrt (p_E p / (p_E p + Es))) in *.
        set (w := _ / sqrt (p_E p + Es)).
        replace (vdot _ _) with (sq * sq * vdot (p_dir p) (p_dir p)) by (unfold vdot, vplus, vscale; cbn; ring).
        rewrite Hs. pose proof (vdot_nonneg (p_dir p)). nra.
    + rewrite <- HE0. replace (0 + Es) with Es by ring.
      destruct (Rle_lt_or_eq_dec _ _ HEs') as [HEsp|HEs0].
      * destruct Hn as [Hn|Hn].
        -- pose proof (refract_short nn (p_dir p) 0 Es Hd Hn (Rle_refl 0)) as X. replace (0 + Es) with Es in X by ring.
           apply X; lra.
        -- rewrite Hn. unfold short in *. unfold Rdiv at 1. rewrite Rmult_0_l, sqrt_0.
           set (w := _ / sqrt Es). replace (vdot _ _) with 0 by (unfold vdot, vplus, vscale; cbn; ring). lra.
      * rewrite <- HEs0. unfold short, Rdiv. rewrite !Rmult_0_l, sqrt_0, Rplus_0_l, sqrt_0.
        rewrite Ropp_0, Rmult_0_l, Rplus_0_l, Rmult_0_l. unfold vdot, vplus, vscale; cbn. lra.
  - subst. constructor; assumption.
Qed.

Lemma bca_step_energy_ok build mat options p particles rng n p' particles' n' :
  physical mat -> active p -> energy_ok p -> Forall energy_ok particles ->
  bca_step build mat options p particles rng n = Ok ((p', particles'), n') ->
  energy_ok p' /\ Forall energy_ok particles'.
Proof.
  intros Hph Ha Hp Hps H. apply bca_step_states in H; [|exact Ha].
  destruct H as (p0 & bcgs & n1 & cs & bcg0 & dist & q & loss & Hd & Hloop & _ & _ & (qa & Hqa & HEa & Hsub) & _ & _ & _ & Hdq & _ & _ & Haq & Hid & Hb & ->).
  assert (Hp0 : energy_ok p0).
  { rewrite (determine_frame _ _ _ _ _ _ _ _ Hd). destruct Hp. destruct (p_first_step p); constructor; assumption. }
  apply (collision_loop_invariant (fun c => energy_ok (cs_particle_1 c) /\ Forall energy_ok (cs_particles c))) in Hloop;
    [|intros; eapply collision_step_energy_ok; eassumption|split; assumption].
  destruct Hloop as [Hc1 Hcs]. split; [|exact Hcs].
  assert (Hq : energy_ok q).
  { assert (HEq : 0 <= p_E q).
    { destruct (in_material mat (p_pos qa)) eqn:Hin.
      - destruct (stopping_inside _ _ _ _ _ _ _ _ _ Hsub Hin) as (_ & ->). cbn. apply Rmax_l.
      - destruct (stopping_outside _ _ _ _ _ _ _ _ _ Hsub Hin) as (-> & _). rewrite HEa. apply Hc1. }
    destruct Hp. constructor; [exact HEq| | |rewrite Hdq; apply Hc1].
    - replace (p_m q) with (p_m p) by apply Hid. assumption.
    - replace (p_Es q) with (p_Es p) by apply Hid. assumption. }
  destruct (loss_tracker_frame options (cs_total_energy_lost_to_recoils cs) loss q) as (l & El). rewrite El in Hb.
  assert (Hq' : energy_ok (set_p_energies l q)) by (destruct Hq; constructor; assumption).
  pose proof (boundary_ok _ _ _ (Haq : active (set_p_energies l q)) Hb) as (Hid' & _).
  destruct (boundary_cases _ _ _ (Haq : active (set_p_energies l q)) Hb) as [(_ & Hs & _)|(_ & Hdir & HE & _)].
  - eapply surface_energy_ok; eassumption.
  - destruct Hq'. constructor.
    + rewrite HE. assumption.
    + replace (p_m p') with (p_m (set_p_energies l q)) by apply Hid'. assumption.
    + replace (p_Es p') with (p_Es (set_p_energies l q)) by apply Hid'. assumption.
    + rewrite Hdir. assumption.
Qed.
Lemma run_energy_ok build mat options fuel ion rng n out n' :
  physical mat -> energy_ok ion ->
  single_ion_bca build mat options fuel ion rng n = Ok (out, n') -> Forall energy_ok out.
Proof.
  intros Hph Hi H. eapply run_invariant; [|exact Hi|exact H].
  intros. eapply bca_step_energy_ok; eassumption.
Qed.
