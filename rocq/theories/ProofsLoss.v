(** * ProofsLoss.v - electronic losses: formulas by mode, sign, the strong collision *)
From Coq Require Import ZArith List Bool Reals Lra Lia.
From Verif Require Import Num NumR ModelTypes ModelConsts ModelParticle ModelInteractions ModelGeometry
  ModelMaterial ModelBca Spec SpecR SpecShift SpecEnergy ProofsBase ProofsBca ProofsStep ProofsKinematics ProofsSurface ProofsFlight ProofsMaterial ProofsEnergy.
Import ListNotations.
Open Scope R_scope.

Lemma cA0_R : (cA0 : R) = bohr_radius.
Proof. unfold cA0, bohr_radius. rewrite nlit_neg. f_equal. rewrite pow_IZR. reflexivity. Qed.
Lemma lindhard_length_R Za Zb : 0 < sqrt Za + sqrt Zb ->
  (nlit 8853 (-4) *! cA0 *! npowf (nsqrt Za +! nsqrt Zb) (nZ (-2) /! nZ 3)) = lindhard_length Za Zb.
Proof.
  intros H. unfold lindhard_length. rewrite cA0_R, nlit_neg. toR. rewrite npowf_pos by assumption.
  replace (-2 / 3) with (- (2 / 3)) by lra. rewrite Rpower_Ropp. change (IZR (10 ^ 4)) with 10000. unfold Rdiv. ring.
Qed.
Lemma lindhard_base_pos Za Zb : 0 < Za -> 0 <= Zb -> 0 < sqrt Za + sqrt Zb.
Proof. intros H1 H2. pose proof (sqrt_lt_R0 _ H1). pose proof (sqrt_pos Zb). lra. Qed.
Lemma length_of_R ip Za Zb : 0 < Za -> 0 < Zb ->
  (forall a b, ip = COULOMB a b -> 0 < a /\ 0 < b) -> screening_length Za Zb ip = length_of ip Za Zb.
Proof.
  intros Ha Hb HC. pose proof (lindhard_base_pos Za Zb Ha (Rlt_le _ _ Hb)) as Hs.
  unfold screening_length, length_of. destruct ip; cbv zeta; try (apply lindhard_length_R; assumption); try reflexivity.
  - rewrite !npowf_pos by assumption. rewrite cA0_R, !nlit_neg. reflexivity.
  - destruct (HC _ _ eq_refl). rewrite !npowf_pos by assumption. rewrite cA0_R, !nlit_neg. reflexivity.
Qed.
Lemma exponent_of_R ip : first_screening_radius ip = exponent_of ip.
Proof. unfold first_screening_radius, exponent_of. destruct ip; rewrite ?nlit_neg, ?nZ_R; reflexivity. Qed.
Lemma oen_robinson_R Za Zb Se x0 ip :
  oen_robinson_loss Za Zb Se x0 ip = oen_robinson (first_screening_radius ip) (screening_length Za Zb ip) Se x0.
Proof.
  unfold oen_robinson_loss, oen_robinson. toR. set (g := first_screening_radius ip). set (a := screening_length Za Zb ip).
  unfold Rdiv. simpl pow. rewrite !Rmult_1_r, !Rinv_mult. ring.
Qed.
Lemma continuous_R S n d : weighted_sum S n *! d = continuous_loss S n d.
Proof. rewrite weighted_sum_R. reflexivity. Qed.

Lemma ok_inj {A} (a b : A) : Ok a = Ok b -> a = b.
Proof. congruence. Qed.
Lemma loss_formula mat options (p : Particle R) dist x0 scZ sci loss :
  electronic_loss mat options p dist x0 scZ sci = Ok loss ->
  exists S n j ip,
    electronic_stopping_cross_sections mat p (o_electronic_stopping_mode options) = Ok S /\
    g_get_densities (mat_geometry mat) (vx (p_pos p)) (vy (p_pos p)) (vz (p_pos p)) = Ok n /\
    nth_error (mat_interaction_index mat) sci = Some j /\
    idx2 (o_interaction_potential options) (p_interaction_index p) j = Ok ip /\
    (has_local_part (o_electronic_stopping_mode options) = true -> exists s, nth_error S sci = Some s) /\
    loss = loss_by_mode (o_electronic_stopping_mode options) S n dist (first_screening_radius ip)
             (screening_length (p_Z p) scZ ip) (nth sci S 0) x0.
Proof.
  unfold electronic_loss. intros H.
  apply bind_ok in H. destruct H as (j & Hj & H). apply bind_ok in H. destruct H as (ip & Hip & H).
  apply bind_ok in H. destruct H as (S & HS & H). apply bind_ok in H. destruct H as (n & Hn & H).
  exists S, n, j, ip. split; [exact HS|]. split; [exact Hn|]. split; [apply idx_ok; exact Hj|]. split; [exact Hip|].
  destruct (o_electronic_stopping_mode options); cbn [has_local_part loss_by_mode].
  - split; [discriminate|]. injection H as <-. apply continuous_R.
  - apply bind_ok in H. destruct H as (s & Hs & H). apply idx_ok in Hs. split; [eauto|].
    injection H as <-. rewrite (nth_error_nth _ _ _ Hs). apply oen_robinson_R.
  - split; [discriminate|]. injection H as <-. apply continuous_R.
  - apply bind_ok in H. destruct H as (s & Hs & H). apply idx_ok in Hs. split; [eauto|].
    cbv zeta in H. apply ok_inj in H. rewrite <- H. rewrite (nth_error_nth _ _ _ Hs), oen_robinson_R, continuous_R, nlit_neg. toR.
    change (IZR (10 ^ 1)) with 10. lra.
Qed.

(** ** the strong collision of an iteration *)
Section Strong.
  Context {F : Type} {NF : Num F}.
  Definition strong_of (cs : CollisionState F) : F * F * nat :=
    (cs_normalized_distance_of_closest_approach cs, cs_strong_collision_Z cs, cs_strong_collision_index cs).
  Lemma later_collisions build mat options bcgs : forall k cs rng n cs' n',
    collision_loop build mat options (S k) bcgs cs rng n = Ok (cs', n') -> strong_of cs' = strong_of cs.
  Proof.
    induction bcgs as [|b bcgs IH]; intros k cs rng n cs' n' H; cbn [collision_loop] in H.
    - apply mret_ok in H. destruct H as [-> _]. reflexivity.
    - apply mbind_ok in H. destruct H as (cs1 & n1 & H1 & H). rewrite (IH _ _ _ _ _ _ H).
      apply collision_step_inv in H1.
      destruct H1 as (i & p2 & b' & _ & _ & [(_ & ->)|(_ & r & bulk & keep & _ & _ & _ & ->)]); reflexivity.
  Qed.
  Lemma strong_collision build mat options p particles rng n p' particles' n' :
    active p ->
    bca_step build mat options p particles rng n = Ok ((p', particles'), n') ->
    exists p0 b0 bs n1 i p2 n2 barrier cs,
      determine_mfp_phi_impact_parameter mat options p rng n = Ok ((p0, b0 :: bs), n1) /\
      choose_collision_partner mat options p0 b0 rng n1 = Ok ((i, p2), n2) /\
      in_barrier mat (p_pos p0) = Ok barrier /\
      collision_loop build mat options 0 (b0 :: firstn (o_weak_collision_order options) bs)
        (mkCS p0 particles (nZ 0) (nZ 0) (nZ 0) (nZ 0) 0%nat) rng n1 = Ok (cs, n') /\
      (if in_material mat (p_pos p2) && barrier
       then exists r, calculate_binary_collision build p0 p2 b0 options = Ok (Some r) /\
                      strong_of cs = (bcr_normalized_distance_of_closest_approach r, p_Z p2, i)
       else strong_of cs = (nZ 0, nZ 0, 0%nat)) /\
      exists qa q loss dist,
        dist = bcg_mfp b0 +! p_asymptotic_deflection p -! cs_total_asymptotic_deflection cs /\
        qa = fst (advance (bcg_mfp b0) (cs_total_asymptotic_deflection cs) (cs_particle_1 cs)) /\
        p_pos qa = mkV (vx (p_pos p) +! vx (p_dir_old p) *! dist) (vy (p_pos p) +! vy (p_dir_old p) *! dist)
                    (vz (p_pos p) +! vz (p_dir_old p) *! dist) /\
        p_E qa = p_E (cs_particle_1 cs) /\ same_identity p qa /\
        subtract_electronic_stopping_energy mat options qa dist
               (fst (fst (strong_of cs))) (snd (fst (strong_of cs))) (snd (strong_of cs)) = Ok (q, loss) /\
        boundary_condition_planar mat
          (update_energy_loss_tracker options (cs_total_energy_lost_to_recoils cs) loss q) = Ok p' /\
        p_pos p' = p_pos q /\ particles' = cs_particles cs /\
        (p_energies p' = if p_incident p && o_track_energy_losses options
           then p_energies p ++ [mkEL (cs_total_energy_lost_to_recoils cs) loss (vx (p_pos p')) (vy (p_pos p')) (vz (p_pos p'))]
           else p_energies p).
  Proof.
    intros Ha H. apply bca_step_states in H; [|exact Ha].
    destruct H as (p0 & bcgs & n1 & cs & bcg0 & dist & q & loss & Hd & Hloop & Hb0 & Hdist & (qa & Hqa & HEa & Hsub) & Hpq & _ & _ & _ & _ & _ & Haq & Hid & Hb & Hps).
    destruct bcgs as [|b0 bs]; [discriminate Hb0|]. injection Hb0 as ->.
    cbn [firstn] in Hloop. pose proof Hloop as Hloop0. cbn [collision_loop] in Hloop.
    apply mbind_ok in Hloop. destruct Hloop as (cs1 & n2 & H1 & H2). apply later_collisions in H2.
    apply collision_step_inv in H1. destruct H1 as (i & p2 & barrier & Hc & Hbar & Hcase). cbn [cs_particle_1] in *.
    exists p0, bcg0, bs, n1, i, p2, n2, barrier, cs.
    split; [exact Hd|]. split; [exact Hc|]. split; [exact Hbar|].
    split; [exact Hloop0|].
    split.
    - destruct Hcase as [(-> & E)|(-> & r & bulk & keep & Hr & _ & _ & E)].
      + rewrite H2, E. reflexivity.
      + exists r. split; [exact Hr|]. rewrite H2, E. reflexivity.
    - exists qa, q, loss, dist.
      pose proof (subtract_frame _ _ _ _ _ _ _ _ _ Hsub) as (Eq & Hq).
      split; [exact Hdist|]. split; [exact Hqa|].
      assert (Hpp : p_pos q = p_pos qa) by (rewrite Hq; reflexivity). rewrite <- Hpp.
      split; [exact Hpq|]. split; [exact HEa|].
      split; [rewrite Hq in Hid; exact Hid|]. split; [exact Hsub|]. split; [exact Hb|].
      destruct (loss_tracker_frame options (cs_total_energy_lost_to_recoils cs) loss q) as (l & El).
      pose proof Hb as Hb'. rewrite El in Hb'.
      pose proof (boundary_ok _ _ _ (Haq : active (set_p_energies l q)) Hb') as (_ & B1 & _ & _ & _ & B2 & _).
      cbn in B1, B2. split; [exact B1|]. split; [exact Hps|]. rewrite B2.
      assert (Hl : l = p_energies (update_energy_loss_tracker options (cs_total_energy_lost_to_recoils cs) loss q)) by (rewrite El; reflexivity).
      rewrite Hl. unfold update_energy_loss_tracker.
      assert (Hqi : p_incident q = p_incident p) by (symmetry; apply Hid). rewrite Hqi.
      assert (Hqe : p_energies q = p_energies p).
      { rewrite Hq. cbn. rewrite Hqa. unfold advance.
        pose proof (collision_loop_ok _ _ _ _ _ _ _ _ _ _ Hloop0) as (Hf & _). cbn [cs_particle_1] in Hf.
        assert (p_energies p0 = p_energies p) by (rewrite (determine_frame _ _ _ _ _ _ _ _ Hd); destruct (p_first_step p); reflexivity).
        destruct Hf as (_&_&_&_&_&_&_&_&_&Hes&_).
        unfold update_trajectory_tracker. destruct (_ <! _); [destruct (p_track_trajectories _)|]; cbn; congruence. }
      destruct (p_incident p && o_track_energy_losses options); cbn; rewrite ?Hqe, ?B1; reflexivity.
  Qed.
End Strong.

(** ** signs of the losses *)
Lemma stopping_low_nonneg (E Ma Za Zb : R) : 0 <= E -> 0 < Ma -> 0 < Za -> 0 < Zb -> 0 <= stopping_low E Ma Za Zb.
Proof.
  intros [HE|<-] HMa HZa HZb; [apply Rlt_le, stopping_low_pos; assumption|].
  unfold stopping_low. toR. replace (0 / cQ / Ma * cAMU) with 0 by (unfold Rdiv; ring). rewrite sqrt_0, Rmult_0_r. apply Rle_refl.
Qed.
Lemma cross_sections_nonneg mat (p : Particle R) mode S :
  stopping_target mat -> mode <> INTERPOLATED -> 0 <= p_E p -> 0 < p_m p -> 0 < p_Z p ->
  electronic_stopping_cross_sections mat p mode = Ok S -> Forall (fun s => 0 <= s) S.
Proof.
  intros [HZ Hck _] Hm HE HM HZp H. unfold electronic_stopping_cross_sections in H.
  apply bind_ok in H. destruct H as (ck & Hc & H). apply Hck in Hc.
  apply bind_ok in H. destruct H as (n & _ & H). apply ok_inj in H. subst S.
  rewrite Forall_forall in HZ |- *. intros s Hs. apply in_map_iff in Hs. destruct Hs as ([d Zb] & <- & Hin).
  apply in_combine_r in Hin. cbn [snd]. rewrite stopping_power_low by assumption.
  apply Rmult_le_pos; [assumption|]. apply stopping_low_nonneg; auto.
Qed.
Lemma continuous_nonneg S n d : Forall (fun s => 0 <= s) S -> Forall (fun s => 0 <= s) n -> 0 <= d -> 0 <= continuous_loss S n d.
Proof. intros HS Hn Hd. rewrite <- continuous_R. toR. apply Rmult_le_pos; [apply weighted_sum_nonneg; assumption|exact Hd]. Qed.
Lemma oen_robinson_nonneg g a s x0 : 0 <= s -> 0 <= oen_robinson g a s x0.
Proof.
  intros Hs. unfold oen_robinson. apply Rmult_le_pos; [|left; apply exp_pos]. apply Rmult_le_pos; [|exact Hs].
  unfold Rdiv. apply Rmult_le_pos; [apply pow2_ge_0|].
  destruct (Req_EM_T a 0) as [->|Ha]; [|].
  - simpl pow. rewrite !Rmult_0_l, Rmult_0_r, Rinv_0. apply Rle_refl.
  - left. apply Rinv_0_lt_compat. pose proof PI_RGT_0. apply Rmult_lt_0_compat; [lra|]. simpl pow. rewrite Rmult_1_r. apply Rlt_0_sqr in Ha. exact Ha.
Qed.
Lemma loss_nonneg mat options (p : Particle R) dist x0 scZ sci loss :
  stopping_target mat -> o_electronic_stopping_mode options <> INTERPOLATED -> 0 <= p_E p -> 0 < p_m p -> 0 < p_Z p ->
  o_electronic_stopping_mode options = LOW_ENERGY_LOCAL \/ 0 <= dist ->
  electronic_loss mat options p dist x0 scZ sci = Ok loss -> 0 <= loss.
Proof.
  intros Ht Hm HE HM HZ Hd H. apply loss_formula in H. destruct H as (S & n & j & ip & HS & Hn & _ & _ & Hloc & ->).
  apply cross_sections_nonneg in HS; try assumption. apply (st_n _ Ht) in Hn.
  assert (Hs : 0 <= nth sci S 0).
  { destruct (nth_in_or_default sci S 0) as [Hi| ->]; [|apply Rle_refl]. rewrite Forall_forall in HS. auto. }
  assert (Hl : forall g a, 0 <= oen_robinson g a (nth sci S 0) x0) by (intros; apply oen_robinson_nonneg; exact Hs).
  destruct (o_electronic_stopping_mode options); cbn [loss_by_mode]; try congruence.
  - apply Hl.
  - apply continuous_nonneg; try assumption. destruct Hd; [discriminate|assumption].
  - assert (0 <= continuous_loss S n dist) by (apply continuous_nonneg; try assumption; destruct Hd; [discriminate|assumption]).
    specialize (Hl (first_screening_radius ip) (screening_length (p_Z p) scZ ip)). lra.
Qed.

(** ** with no surface binding energies, the surface changes no energy *)
Lemma weighted_sum_zero vs cs : Forall (fun x => x = 0) vs -> weighted_sum vs cs = 0.
Proof.
  intros H. rewrite weighted_sum_R. revert cs. induction H as [|v vs -> _ IH]; intros [|c cs]; simpl; try reflexivity.
  rewrite IH. ring.
Qed.
Lemma surface_energy_zero mat (p : Particle R) x y z Es :
  Forall (fun e => e = 0) (mat_Es mat) -> p_Es p = 0 -> actual_surface_binding_energy mat p x y z = Ok Es -> Es = 0.
Proof.
  intros HmEs Hp H. unfold actual_surface_binding_energy in H.
  apply bind_ok in H. destruct H as (cs & Hcs & H).
  assert (H1 : sbe_target mat p cs = 0).
  { unfold sbe_target. destruct (_ ==! _); [apply nZ_R|apply weighted_sum_zero; exact HmEs]. }
  assert (H2 : sbe_average mat p cs = 0).
  { unfold sbe_average. destruct (_ || _); [apply nZ_R|]. rewrite weighted_sum_zero, Hp by exact HmEs. toR. ring. }
  apply ok_inj in H. subst Es. destruct (mat_surface_binding_model mat) as [[]|[]| | |]; assumption.
Qed.
Lemma surface_keeps_energy mat (p p' : Particle R) :
  Forall (fun e => e = 0) (mat_Es mat) -> p_Es p = 0 -> surface_binding_energy mat p = Ok p' -> p_E p' = p_E p.
Proof.
  intros HmEs Hp H. apply surface_inv in H. destruct H as (Es & now & before & HEs & _ & _ & Hm).
  apply surface_energy_zero in HEs; try assumption. subst Es.
  destruct before, now.
  - rewrite Hm. reflexivity.
  - cbv zeta in Hm. destruct Hm as (c & _ & [(_ & ->)|[(_ & _ & ->)|(_ & _ & ->)]]); try reflexivity.
    destruct (isotropic _); [cbn; ring|]. rewrite surface_refraction_value. cbn. ring.
  - destruct (p_backreflected p); [rewrite Hm; reflexivity|]. destruct Hm as (c & _ & ->).
    destruct (isotropic _); [cbn; ring|]. rewrite surface_refraction_value. cbn. ring.
  - rewrite Hm. reflexivity.
Qed.

(** ** the energy carried by a stack of particles *)
Lemma total_energy_app a b : total_energy (a ++ b) = total_energy a + total_energy b.
Proof. unfold total_energy, Rsum. induction a as [|p a IH]; cbn [app map fold_right]; [ring|]. rewrite IH. ring. Qed.
(** the particles: energies, masses and charges are physical, no surface binding energy *)
Definition carrier (p : Particle R) : Prop := energy_ok p /\ 0 < p_Z p /\ p_Es p = 0.
Lemma recoil_carrier mat options p bcg rng n i p2 n' :
  physical mat -> stopping_target mat -> no_surface_barrier mat ->
  choose_collision_partner mat options p bcg rng n = Ok ((i, p2), n') -> 0 < p_Z p2 /\ p_Es p2 = 0.
Proof.
  intros Hph Hst Hnb H. apply partner_inv in H. destruct H as (_ & _ & _ & _ & _ & _ & (HZ & _ & _ & HEs & _) & _).
  pose proof (st_Z _ Hst) as X. pose proof (nb_Es _ Hnb) as Y. rewrite Forall_forall in X, Y.
  split; [apply X; eapply nth_error_In; exact HZ|apply Y; eapply nth_error_In; exact HEs].
Qed.
Lemma collision_step_total build mat options k bcg cs rng n cs' n' :
  physical mat -> stopping_target mat -> no_surface_barrier mat ->
  carrier (cs_particle_1 cs) /\ Forall carrier (cs_particles cs) ->
  collision_step build mat options k bcg cs rng n = Ok (cs', n') ->
  (carrier (cs_particle_1 cs') /\ Forall carrier (cs_particles cs')) /\
  p_E (cs_particle_1 cs') + total_energy (cs_particles cs') <= p_E (cs_particle_1 cs) + total_energy (cs_particles cs).
Proof.
  intros Hph Hst Hnb [[Hp [HZ HEs]] Hps] H.
  assert (Hok : energy_ok (cs_particle_1 cs') /\ Forall energy_ok (cs_particles cs')).
  { eapply collision_step_energy_ok; [exact Hph| |exact H]. split; [exact Hp|]. eapply Forall_impl; [|exact Hps]. intros a Ha. apply Ha. }
  destruct Hok as (Hok1 & Hok2).
  pose proof H as H0. apply collision_step_inv in H.
  destruct H as (i & p2 & b & Hc & _ & [(_ & ->)|(_ & r & bulk & keep & Hr & Hbulk & Hk & ->)]).
  { split; [|apply Rle_refl]. split; [split; auto|exact Hps]. }
  cbn [cs_particle_1 cs_particles] in *.
  destruct (recoil_carrier _ _ _ _ _ _ _ _ _ Hph Hst Hnb Hc) as (HZ2 & HEs2).
  assert (Hb : 0 <= bulk).
  { unfold average_bulk_binding_energy in Hbulk. apply bind_ok in Hbulk. destruct Hbulk as (c & Hcc & E). apply ok_inj in E. subst bulk.
    apply weighted_sum_nonneg; [apply Hnb|]. eapply ph_conc; [exact Hph|exact Hcc]. }
  assert (HE1 : p_E (projectile_after k bcg r (cs_particle_1 cs)) = p_E (cs_particle_1 cs) - bcr_recoil_energy r).
  { unfold projectile_after, rotate. destruct (_ && _); cbn; ring. }
  pose proof (partner_inv _ _ _ _ _ _ _ _ _ Hc) as (_ & _ & _ & _ & _ & _ & (_ & Hmi & _) & _).
  assert (Hm2 : 0 < p_m p2) by (pose proof (ph_m _ Hph) as X; rewrite Forall_forall in X; apply X; eapply nth_error_In; exact Hmi).
  pose proof (cbc_energy_bounds _ _ _ _ _ _ (eo_m _ Hp) Hm2 (eo_E _ Hp) Hr) as (T1 & _).
  split.
  - split.
    + split; [exact Hok1|]. unfold projectile_after, rotate. destruct (_ && _); cbn; auto.
    + destruct keep; [|exact Hps]. constructor; [|exact Hps]. inversion_clear Hok2. split; [assumption|]. split; [exact HZ2|exact HEs2].
  - rewrite HE1. destruct keep; unfold total_energy, Rsum; cbn [map fold_right].
    + change (p_E (recoil_after bcg r bulk p2)) with (bcr_recoil_energy r -! bulk). toR. lra.
    + lra.
Qed.
Lemma step_total build mat options p particles rng n p' particles' n' :
  physical mat -> stopping_target mat -> no_surface_barrier mat ->
  o_electronic_stopping_mode options = LOW_ENERGY_LOCAL ->
  active p -> carrier p -> Forall carrier particles ->
  bca_step build mat options p particles rng n = Ok ((p', particles'), n') ->
  (carrier p' /\ Forall carrier particles') /\ p_E p' + total_energy particles' <= p_E p + total_energy particles.
Proof.
  intros Hph Hst Hnb Hmode Ha Hp Hps H.
  assert (Hok : energy_ok p' /\ Forall energy_ok particles').
  { eapply bca_step_energy_ok; [exact Hph|exact Ha|apply Hp| |exact H]. eapply Forall_impl; [|exact Hps]. intros a Hca. apply Hca. }
  apply bca_step_states in H; [|exact Ha].
  destruct H as (p0 & bcgs & n1 & cs & bcg0 & dist & q & loss & Hd & Hloop & _ & _ & (qa & Hqa & HEa & Hsub) & _ & _ & _ & Hdq & _ & _ & Haq & Hid & Hb & ->).
  assert (Hp0 : carrier p0 /\ p_E p0 = p_E p).
  { rewrite (determine_frame _ _ _ _ _ _ _ _ Hd). destruct Hp as ([] & ?). destruct (p_first_step p); repeat split; try assumption; apply H. }
  destruct Hp0 as (Hp0 & HE0).
  apply (collision_loop_invariant (fun c => (carrier (cs_particle_1 c) /\ Forall carrier (cs_particles c)) /\
      p_E (cs_particle_1 c) + total_energy (cs_particles c) <= p_E p + total_energy particles)) in Hloop.
  2:{ intros k bcg c rg m c' m' [Hc He] Hs. apply collision_step_total in Hs; try assumption. destruct Hs as (Hc' & He'). split; [exact Hc'|lra]. }
  2:{ cbn [cs_particle_1 cs_particles]. split; [auto|]. rewrite HE0. apply Rle_refl. }
  destruct Hloop as [[Hc1 Hcs] He].
  assert (Hidq : p_Z q = p_Z p /\ p_Es q = p_Es p /\ p_m q = p_m p) by (split; [|split]; symmetry; apply Hid).
  destruct Hidq as (HZq & HEsq & Hmq).
  assert (HEq : 0 <= p_E q <= p_E (cs_particle_1 cs)).
  { pose proof (eo_E _ (proj1 Hc1)) as Hpos.
    pose proof (subtract_frame _ _ _ _ _ _ _ _ _ Hsub) as (Eq & Hq).
    destruct (in_material mat (p_pos qa)) eqn:Hin.
    - destruct (stopping_inside _ _ _ _ _ _ _ _ _ Hsub Hin) as (Hl & Hqe).
      apply loss_nonneg in Hl; try assumption.
      + rewrite Hqe. cbn [p_E set_p_E]. rewrite HEa. split; [apply Rmax_l|]. apply Rmax_lub; lra.
      + rewrite Hmode. discriminate.
      + rewrite HEa. exact Hpos.
      + rewrite Hq in Hmq. cbn in Hmq. rewrite Hmq. apply Hp.
      + rewrite Hq in HZq. cbn in HZq. rewrite HZq. apply Hp.
      + left. exact Hmode.
    - destruct (stopping_outside _ _ _ _ _ _ _ _ _ Hsub Hin) as (-> & _). rewrite HEa. lra. }
  destruct (loss_tracker_frame options (cs_total_energy_lost_to_recoils cs) loss q) as (l & El). rewrite El in Hb.
  pose proof (boundary_ok _ _ _ (Haq : active (set_p_energies l q)) Hb) as (Hid' & _).
  assert (HE' : p_E p' = p_E q).
  { destruct (boundary_cases _ _ _ (Haq : active (set_p_energies l q)) Hb) as [(_ & Hs & _)|(_ & _ & HE' & _)]; [|exact HE'].
    apply surface_keeps_energy in Hs; [exact Hs|apply Hnb|]. cbn. rewrite HEsq. apply Hp. }
  split; [split; [|exact Hcs]|].
  - split; [apply Hok|]. replace (p_Z p') with (p_Z (set_p_energies l q)) by apply Hid'.
    replace (p_Es p') with (p_Es (set_p_energies l q)) by apply Hid'. cbn. rewrite HZq, HEsq. apply Hp.
  - rewrite HE'. lra.
Qed.
Lemma bca_loop_total build mat options fuel :
  physical mat -> stopping_target mat -> no_surface_barrier mat ->
  o_electronic_stopping_mode options = LOW_ENERGY_LOCAL ->
  forall p particles i rng n p' particles' i' n', carrier p -> Forall carrier particles ->
    bca_loop build mat options fuel p particles i rng n = Ok ((p', particles', i'), n') ->
    (carrier p' /\ Forall carrier particles') /\ p_E p' + total_energy particles' <= p_E p + total_energy particles.
Proof.
  intros Hph Hst Hnb Hmode. induction fuel as [|fuel IH]; intros p particles i rng n p' particles' i' n' Hp Hps H; [discriminate H|].
  cbn [bca_loop] in H. destruct (active_dec p) as [Ha|Ha].
  - rewrite (active_test p Ha) in H. apply mbind_ok in H. destruct H as ([p1 parts1] & n1 & Hstep & H).
    apply step_total in Hstep; try assumption. destruct Hstep as [[Hp1 Hps1] He]. apply IH in H; try assumption.
    destruct H as (Hc & He'). split; [exact Hc|lra].
  - rewrite (not_active_test p Ha) in H. inv_ok. split; [auto|apply Rle_refl].
Qed.
Lemma total_nonneg ps : Forall carrier ps -> 0 <= total_energy ps.
Proof.
  induction 1 as [|p ps [[] _] _ IH]; unfold total_energy in *; cbn [map Rsum fold_right] in *; [apply Rle_refl|].
  change (fold_right Rplus 0 (map p_E ps)) with (Rsum (map p_E ps)). lra.
Qed.
Lemma stack_loop_total build mat options fuel :
  physical mat -> stopping_target mat -> no_surface_barrier mat ->
  o_electronic_stopping_mode options = LOW_ENERGY_LOCAL ->
  forall particles out i rng n res n', Forall carrier particles ->
    stack_loop build mat options fuel particles out i rng n = Ok (res, n') ->
    total_energy res <= total_energy particles + total_energy out.
Proof.
  intros Hph Hst Hnb Hmode. induction fuel as [|fuel IH]; intros particles out i rng n res n' Hps H; [discriminate H|].
  cbn [stack_loop] in H. destruct i as [|i].
  { inv_ok. pose proof (total_nonneg _ Hps). lra. }
  destruct particles as [|p1 ps]; [discriminate H|]. inversion_clear Hps.
  apply mbind_ok in H. destruct H as ([[p' ps'] i'] & n1 & Hl & H).
  pose proof Hl as Hl'. apply bca_loop_total in Hl; try assumption. destruct Hl as [[Hp' Hps'] He].
  apply IH in H; [|exact Hps'].
  rewrite total_energy_app in H. unfold total_energy in *. cbn [map Rsum fold_right] in *. unfold Rsum in *. lra.
Qed.
