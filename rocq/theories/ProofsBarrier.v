(** * ProofsBarrier.v - the surface barrier as a conservative force (exact arithmetic) *)
From Coq Require Import ZArith List Bool Reals Lra Lia.
From Verif Require Import Num NumR ModelTypes ModelConsts ModelParticle ModelInteractions ModelGeometry
  ModelMaterial ModelBca Spec SpecShift SpecR SpecEnergy SpecBarrier ProofsBase ProofsBca ProofsStep ProofsKinematics
  ProofsSurface ProofsFlight ProofsEnergy ProofsLoss.
Import ListNotations.
Open Scope R_scope.

(** charges *)
Definition payer (p : Particle R) : Prop := energy_ok p /\ 0 < p_Z p.
Definition waiting (mat : Material R) (p : Particle R) : Prop :=
  payer p /\ active p /\ p_incident p = false /\ owes mat p = true.
Definition contrib (mat : Material R) (B : Particle R -> R) (eb : R) (p : Particle R) : R :=
  free_energy mat B p + if p_incident p then 0 else B p + eb.
Definition contribs mat B eb (ps : list (Particle R)) : R := Rsum (map (contrib mat B eb) ps).

Lemma contribs_app mat B eb a b : contribs mat B eb (a ++ b) = contribs mat B eb a + contribs mat B eb b.
Proof. unfold contribs, Rsum. induction a as [|p a IH]; cbn [app map fold_right]; [ring|]. rewrite IH. ring. Qed.

Lemma choose_newborn mat options (p1 : Particle R) bcg rng n i p2 n' :
  choose_collision_partner mat options p1 bcg rng n = Ok ((i, p2), n') ->
  p_stopped p2 = false /\ p_left p2 = false /\ p_incident p2 = false /\ p_backreflected p2 = false.
Proof. intros H. unfold choose_collision_partner, choose in H. inv_ok. cbn. auto. Qed.

Section Barrier.
  Context (mat : Material R) (B : Particle R -> R) (eb : R).
  Context (Hph : physical mat) (Hst : stopping_target mat) (HB : uniform_barrier mat B)
          (Hout : barrier_outside mat) (Hcost : costs_at_least mat eb).

  Lemma B_nonneg p : energy_ok p -> 0 <= B p.
  Proof. intros [_ _ H _]. destruct HB as (_ & _ & HP). apply HP. exact H. Qed.

  Lemma collision_step_contrib build options k bcg cs rng n cs' n' :
    payer (cs_particle_1 cs) /\ Forall (waiting mat) (cs_particles cs) ->
    collision_step build mat options k bcg cs rng n = Ok (cs', n') ->
    (payer (cs_particle_1 cs') /\ Forall (waiting mat) (cs_particles cs')) /\
    p_E (cs_particle_1 cs') + contribs mat B eb (cs_particles cs') <= p_E (cs_particle_1 cs) + contribs mat B eb (cs_particles cs).
  Proof.
    intros [[Hp HZ] Hps] H.
    assert (Hok : energy_ok (cs_particle_1 cs') /\ Forall energy_ok (cs_particles cs')).
    { eapply collision_step_energy_ok; [exact Hph| |exact H]. split; [exact Hp|]. eapply Forall_impl; [|exact Hps]. intros a Ha. apply Ha. }
    destruct Hok as (Hok1 & Hok2).
    pose proof H as H0. apply collision_step_inv in H.
    destruct H as (i & p2 & b & Hc & _ & [(_ & ->)|(Hin & r & bulk & keep & Hr & Hbulk & Hk & ->)]).
    { split; [|apply Rle_refl]. split; [split; auto|exact Hps]. }
    cbn [cs_particle_1 cs_particles] in *.
    pose proof (partner_inv _ _ _ _ _ _ _ _ _ Hc) as Hpart.
    destruct Hpart as (_ & _ & _ & _ & _ & _ & (HZ2 & Hmi & _) & _).
    assert (HZp : 0 < p_Z p2) by (pose proof (st_Z _ Hst) as X; rewrite Forall_forall in X; apply X; eapply nth_error_In; exact HZ2).
    assert (Hm2 : 0 < p_m p2) by (pose proof (ph_m _ Hph) as X; rewrite Forall_forall in X; apply X; eapply nth_error_In; exact Hmi).
    assert (Hb : eb <= bulk) by (destruct Hcost as (_ & X); eapply X; exact Hbulk).
    apply andb_true_iff in Hin. destruct Hin as (Hin & _). apply Hout in Hin.
    assert (HE1 : p_E (projectile_after k bcg r (cs_particle_1 cs)) = p_E (cs_particle_1 cs) - bcr_recoil_energy r).
    { unfold projectile_after, rotate. destruct (_ && _); cbn; ring. }
    pose proof (cbc_energy_bounds _ _ _ _ _ _ (eo_m _ Hp) Hm2 (eo_E _ Hp) Hr) as (T1 & _).
    pose proof (choose_newborn _ _ _ _ _ _ _ _ _ Hc) as Hnb.
    destruct Hnb as (Nst & Nlf & Nin & Nbr).
    split.
    - split.
      + split; [exact Hok1|]. unfold projectile_after, rotate. destruct (_ && _); cbn; auto.
      + destruct keep; [|exact Hps]. constructor; [|exact Hps]. inversion_clear Hok2.
        split; [split; [assumption|exact HZp]|]. split; [split; assumption|]. split; [exact Nin|].
        unfold owes. change (p_left (recoil_after bcg r bulk p2)) with (p_left p2). rewrite Nlf.
        change (p_pos (recoil_after bcg r bulk p2)) with (p_pos p2). rewrite Hin. reflexivity.
    - rewrite HE1. destruct keep; unfold contribs, Rsum; cbn [map fold_right].
      + unfold contrib at 1. unfold free_energy, owes. change (p_left (recoil_after bcg r bulk p2)) with (p_left p2). rewrite Nlf.
        change (p_pos (recoil_after bcg r bulk p2)) with (p_pos p2). rewrite Hin. cbn [negb andb orb].
        change (p_incident (recoil_after bcg r bulk p2)) with (p_incident p2). rewrite Nin.
        change (p_E (recoil_after bcg r bulk p2)) with (bcr_recoil_energy r -! bulk). toR. lra.
      + lra.
  Qed.

  Lemma same_B p q : same_identity p q -> B p = B q.
  Proof. intros H. destruct HB as (_ & X & _). apply X. apply H. Qed.
  (** the particle after the boundary conditions *)
  Lemma surface_contrib p q p' :
    active p -> active q -> energy_ok q -> same_identity p q ->
    p_pos_old q = p_pos p -> p_backreflected q = p_backreflected p ->
    boundary_condition_planar mat q = Ok p' -> ~ unpaid mat p p' ->
    free_energy mat B p' - p_E q <= free_energy mat B p - p_E p.
  Proof.
    intros Ha Haq Hq Hid Hpo Hbr Hb Hun.
    pose proof (boundary_ok _ _ _ Haq Hb) as Hbo. destruct Hbo as (Hid' & Hpos' & Hfin & _).
    pose proof (same_B _ _ Hid) as EB. pose proof (same_B _ _ Hid') as EB'. pose proof (B_nonneg _ Hq) as HBq.
    unfold free_energy. rewrite EB, <- EB'.
    destruct (boundary_cases _ _ _ Haq Hb) as [(Ha' & Hs & _)|(Ha' & _ & HE & Hbr' & _)].
    - apply surface_inv in Hs. destruct Hs as (Es & now & before & HEs & Hn & Hbf & Hm).
      destruct HB as (HBe & _). apply HBe in HEs. subst Es. rewrite Hpo in Hbf.
      assert (Op : owes mat p = before || p_backreflected q).
      { unfold owes. destruct Ha as (_ & ->). rewrite Hbf, Hbr. reflexivity. }
      assert (Op' : owes mat p' = now || p_backreflected p').
      { unfold owes. destruct Ha' as (_ & ->). rewrite Hpos', Hn. reflexivity. }
      rewrite Op, Op'.
      destruct before, now; cbn [orb].
      + rewrite Hm. lra.
      + destruct Hm as (c & Hc & Hm). cbv zeta in Hm.
        destruct Hm as [(Hct & Hm)|[(Hct & HL & Hm)|(Hct & HL & Hm)]].
        * assert (Hf : p_backreflected p' = true).
          { destruct (p_backreflected p') eqn:E; [reflexivity|]. exfalso. apply Hun. split; [rewrite Op; reflexivity|].
            right. split; [exact Hbf|]. rewrite Hpos'. split; [exact Hn|]. split; [exact E|].
            exists c. split; [exact Hc|]. rewrite Hm. exact Hct. }
          rewrite Hf, Hm. lra.
        * assert (HE : p_E p' = p_E q - B q).
          { rewrite Hm. destruct (isotropic _); [reflexivity|]. rewrite surface_refraction_value. cbn. lra. }
          rewrite HE. destruct (p_backreflected p'); lra.
        * rewrite Hm. cbn [p_backreflected p_E set_p_backreflected set_p_dir]. lra.
      + destruct (p_backreflected q) eqn:Ebr.
        * rewrite Hm. cbn. lra.
        * destruct Hm as (c & _ & Hm).
          assert (HE : p_E p' = p_E q + B q).
          { rewrite Hm. destruct (isotropic _); [reflexivity|]. rewrite surface_refraction_value. cbn. lra. }
          rewrite HE. lra.
      + rewrite Hm. destruct (p_backreflected q); lra.
    - rewrite HE. destruct (p_left p') eqn:El.
      + assert (Op' : owes mat p' = false) by (unfold owes; rewrite El; reflexivity). rewrite Op'.
        destruct (owes mat p) eqn:Op; [|lra]. exfalso. apply Hun. split; [exact Op|]. left. exact El.
      + assert (Op' : owes mat p' = true).
        { unfold owes. rewrite El. cbn [negb andb].
          destruct Hfin as [Hfin|[(_ & _ & _ & Hin & _)|(Hfin & _)]]; [contradiction| |congruence]. rewrite Hin. reflexivity. }
        rewrite Op'. destruct (owes mat p); lra.
  Qed.

  Lemma step_contrib build options p particles rng n p' particles' n' :
    o_electronic_stopping_mode options = LOW_ENERGY_LOCAL ->
    active p -> payer p -> Forall (waiting mat) particles ->
    bca_step build mat options p particles rng n = Ok ((p', particles'), n') -> ~ unpaid mat p p' ->
    (payer p' /\ Forall (waiting mat) particles') /\
    contrib mat B eb p' + contribs mat B eb particles' <= contrib mat B eb p + contribs mat B eb particles.
  Proof.
    intros Hmode Ha Hp Hps H Hun.
    assert (Hok : energy_ok p' /\ Forall energy_ok particles').
    { eapply bca_step_energy_ok; [exact Hph|exact Ha|apply Hp| |exact H]. eapply Forall_impl; [|exact Hps]. intros a Hca. apply Hca. }
    apply bca_step_states in H; [|exact Ha].
    destruct H as (p0 & bcgs & n1 & cs & bcg0 & dist & q & loss & Hd & Hloop & _ & _ & (qa & Hqa & HEa & Hsub) & _ & Hpo & _ & Hdq & _ & Hbrq & Haq & Hid & Hb & ->).
    assert (Hp0 : payer p0 /\ p_E p0 = p_E p).
    { rewrite (determine_frame _ _ _ _ _ _ _ _ Hd). destruct Hp as ([] & ?). destruct (p_first_step p); repeat split; try assumption; apply H. }
    destruct Hp0 as (Hp0 & HE0).
    apply (collision_loop_invariant (fun c => (payer (cs_particle_1 c) /\ Forall (waiting mat) (cs_particles c)) /\
        p_E (cs_particle_1 c) + contribs mat B eb (cs_particles c) <= p_E p + contribs mat B eb particles)) in Hloop.
    2:{ intros k bcg c rg m c' m' [Hc He] Hs. apply collision_step_contrib in Hs; try assumption. destruct Hs as (Hc' & He'). split; [exact Hc'|lra]. }
    2:{ cbn [cs_particle_1 cs_particles]. split; [auto|]. rewrite HE0. apply Rle_refl. }
    destruct Hloop as [[Hc1 Hcs] He].
    assert (Hidq : p_Z q = p_Z p /\ p_Es q = p_Es p /\ p_m q = p_m p) by (split; [|split]; symmetry; apply Hid).
    destruct Hidq as (HZq & HEsq & Hmq).
    assert (HEq : 0 <= p_E q <= p_E (cs_particle_1 cs)).
    { pose proof (eo_E _ (proj1 Hc1)) as Hpos.
      pose proof (subtract_frame _ _ _ _ _ _ _ _ _ Hsub) as (Eq & Hq).
      destruct (in_material mat (p_pos qa)) eqn:Hin.
      - destruct (stopping_inside _ _ _ _ _ _ _ _ _ Hsub Hin) as (Hl & Hqe).
        apply loss_nonneg in Hl; try assumption.
        + rewrite Hqe. cbn [p_E set_p_E]. rewrite HEa. split; [apply Rmax_l|]. apply Rmax_lub; lra.
        + rewrite Hmode. discriminate.
        + rewrite HEa. exact Hpos.
        + rewrite Hq in Hmq. cbn in Hmq. rewrite Hmq. apply Hp.
        + rewrite Hq in HZq. cbn in HZq. rewrite HZq. apply Hp.
        + left. exact Hmode.
      - destruct (stopping_outside _ _ _ _ _ _ _ _ _ Hsub Hin) as (-> & _). rewrite HEa. lra. }
    destruct (loss_tracker_frame options (cs_total_energy_lost_to_recoils cs) loss q) as (l & El). rewrite El in Hb.
    pose proof (boundary_ok _ _ _ (Haq : active (set_p_energies l q)) Hb) as (Hid' & _).
    assert (Hqok : energy_ok (set_p_energies l q)).
    { destruct Hp as [[] _]. constructor; cbn [p_E p_m p_Es p_dir set_p_energies]; [apply HEq|rewrite Hmq; assumption|rewrite HEsq; assumption|].
      rewrite Hdq. apply Hc1. }
    pose proof (surface_contrib p (set_p_energies l q) p' Ha Haq Hqok Hid Hpo Hbrq Hb Hun) as Hsc.
    cbn [p_E set_p_energies] in Hsc.
    assert (Hid2 : same_identity p p').
    { eapply same_identity_trans; [exact Hid|]. exact Hid'. }
    split; [split; [|exact Hcs]|].
    - split; [apply Hok|]. replace (p_Z p') with (p_Z p) by apply Hid2. apply Hp.
    - unfold contrib at 1 2. replace (p_incident p') with (p_incident p) by apply Hid2. rewrite (same_B _ _ Hid2).
      destruct (p_incident p); lra.
  Qed.

  Lemma bca_loop_contrib build options rng ion n0 fuel :
    o_electronic_stopping_mode options = LOW_ENERGY_LOCAL -> never_unpaid build mat options rng ion n0 ->
    forall p particles i n p' particles' i' n', payer p -> Forall (waiting mat) particles ->
      reached build mat options rng ion n0 p particles n ->
      bca_loop build mat options fuel p particles i rng n = Ok ((p', particles', i'), n') ->
      (payer p' /\ Forall (waiting mat) particles') /\ reached build mat options rng ion n0 p' particles' n' /\ ~ active p' /\
      contrib mat B eb p' + contribs mat B eb particles' <= contrib mat B eb p + contribs mat B eb particles.
  Proof.
    intros Hmode Hnu. induction fuel as [|fuel IH]; intros p particles i n p' particles' i' n' Hp Hps Hre H; [discriminate H|].
    cbn [bca_loop] in H. destruct (active_dec p) as [Ha|Ha].
    - rewrite (active_test p Ha) in H. apply mbind_ok in H. destruct H as ([p1 parts1] & n1 & Hstep & H).
      pose proof (reached_step _ _ _ _ _ _ _ _ _ _ _ _ Hre Ha Hstep) as Hre1.
      pose proof (Hnu _ _ _ _ _ _ Hre Ha Hstep) as Hun.
      apply step_contrib in Hstep; try assumption. destruct Hstep as [[Hp1 Hps1] He]. apply IH in H; try assumption.
      destruct H as (Hc & Hr & Hna & He'). split; [exact Hc|]. split; [exact Hr|]. split; [exact Hna|lra].
    - rewrite (not_active_test p Ha) in H. inv_ok. split; [auto|]. split; [exact Hre|]. split; [exact Ha|apply Rle_refl].
  Qed.
  Lemma contribs_nonneg ps : Forall (waiting mat) ps -> 0 <= contribs mat B eb ps.
  Proof.
    destruct Hcost as (Heb & _).
    induction 1 as [|p ps ([[] _] & _ & Hi & Ho) _ IH]; unfold contribs, Rsum in *; cbn [map fold_right] in *; [apply Rle_refl|].
    unfold contrib at 1, free_energy. rewrite Ho, Hi. lra.
  Qed.
  Lemma stack_loop_contrib build options rng ion n0 fuel :
    o_electronic_stopping_mode options = LOW_ENERGY_LOCAL -> never_unpaid build mat options rng ion n0 ->
    forall p particles out i n res n', payer p -> Forall (waiting mat) particles ->
      reached build mat options rng ion n0 p particles n ->
      stack_loop build mat options fuel (p :: particles) out i rng n = Ok (res, n') -> i <> 0%nat ->
      contribs mat B eb res <= contrib mat B eb p + contribs mat B eb particles + contribs mat B eb out.
  Proof.
    intros Hmode Hnu. induction fuel as [|fuel IH]; intros p particles out i n res n' Hp Hps Hre H Hi; [discriminate H|].
    cbn [stack_loop] in H. destruct i as [|i]; [congruence|].
    apply mbind_ok in H. destruct H as ([[p' ps'] i'] & n1 & Hl & H).
    apply (bca_loop_contrib _ _ _ _ _ _ Hmode Hnu) in Hl; try assumption. destruct Hl as ([Hp' Hps'] & Hre' & Hna & He).
    destruct fuel as [|fuel]; [discriminate H|].
    destruct i' as [|i'].
    { cbn [stack_loop] in H. inv_ok. rewrite contribs_app. pose proof (contribs_nonneg _ Hps').
      unfold contribs, Rsum in *. cbn [map fold_right] in *. lra. }
    destruct ps' as [|q ps']; [discriminate H|].
    inversion_clear Hps' as [|? ? Hq Hps2]. pose proof (reached_next _ _ _ _ _ _ _ _ _ _ Hre' Hna) as Hre2.
    eapply IH in H; [|apply Hq|exact Hps2|exact Hre2|discriminate].
    rewrite contribs_app in H. unfold contribs, Rsum in *. cbn [map fold_right] in *. lra.
  Qed.

  Theorem cascade_pays build options fuel ion rng n out n' :
    o_electronic_stopping_mode options = LOW_ENERGY_LOCAL -> never_unpaid build mat options rng ion n ->
    energy_ok ion -> 0 < p_Z ion -> p_incident ion = true ->
    single_ion_bca build mat options fuel ion rng n = Ok (out, n') ->
    exists ion' recoils, out = ion' :: recoils /\ Forall (fun r => p_incident r = false) recoils /\
      Rsum (map (cost_of B eb) recoils) + p_E ion' <=
      free_energy mat B ion + (if p_stopped ion' then B ion else 0).
  Proof.
    intros Hmode Hnu Hi HZ Hinc H.
    pose proof (run_finished _ _ _ _ _ _ _ _ _ H) as Hfin.
    pose proof (run_first _ _ _ _ _ _ _ _ _ H) as (ion' & rs & -> & Hid & Hrs).
    exists ion', rs. split; [reflexivity|]. split; [exact Hrs|].
    unfold single_ion_bca in H. apply (stack_loop_contrib _ _ _ _ _ _ Hmode Hnu) in H; try discriminate; try (constructor; fail).
    2:{ split; assumption. }
    inversion_clear Hfin as [|? ? Hf1 Hf].
    unfold contribs at 1 2 3 in H. cbn [map Rsum fold_right] in H. fold (Rsum (map (contrib mat B eb) rs)) in H.
    assert (E : Rsum (map (contrib mat B eb) rs) = Rsum (map (cost_of B eb) rs)).
    { f_equal. clear H. induction rs as [|r rs IH]; [reflexivity|]. inversion_clear Hrs. inversion_clear Hf. cbn [map]. f_equal; [|auto].
      unfold contrib, cost_of, free_energy. rewrite H. unfold owes.
      destruct H1 as [(_ & Hl & _ & Hin & _)|(Hl & _)]; rewrite Hl; [rewrite Hin|]; cbn [negb andb orb]; ring. }
    rewrite E in H. unfold contrib at 1 2 in H. rewrite Hinc in H. replace (p_incident ion') with true in H by (rewrite <- Hinc; apply Hid).
    assert (E' : free_energy mat B ion' = p_E ion' - if p_stopped ion' then B ion else 0).
    { unfold free_energy, owes. rewrite (same_B _ _ Hid). destruct Hf1 as [(Hs & Hl & _ & Hin & _)|(Hl & Hs & _)]; rewrite Hl, Hs; [rewrite Hin|]; reflexivity. }
    rewrite E' in H. lra.
  Qed.
End Barrier.
