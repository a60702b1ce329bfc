(** * ProofsHalf.v - flight outside a half-space target (exact arithmetic) *)
From Coq Require Import ZArith List Bool Lia Reals Lra.
From Verif Require Import Num ModelTypes ModelConsts ModelParticle ModelInteractions ModelGeometry
  ModelMaterial ModelBca Spec ProofsBase ProofsBca NumR SpecR ProofsStep ProofsSampling ProofsEnergy ProofsFlight.
Import ListNotations.
Open Scope R_scope.

Lemma advance_fields mfp asym (p : Particle R) :
  let q := fst (advance mfp asym p) in
  p_pos q = vplus (p_pos p) (vscale (mfp + p_asymptotic_deflection p - asym) (p_dir_old p)) /\
  p_pos_old q = p_pos p /\ p_dir q = p_dir p /\ p_dir_old q = p_dir p /\
  p_asymptotic_deflection q = asym /\ p_first_step q = p_first_step p /\
  p_stopped q = p_stopped p /\ p_left q = p_left p /\ p_E q = p_E p /\ p_backreflected q = p_backreflected p /\
  same_identity p q.
Proof.
  intros q. unfold q, advance. cbn [fst].
  assert (Hu : forall v : Particle R, exists tr, update_trajectory_tracker v = set_p_trajectory tr v).
  { intros v. unfold update_trajectory_tracker. destruct (p_track_trajectories v); eexists; [reflexivity|].
    instantiate (1 := p_trajectory v). destruct v; reflexivity. }
  destruct (Hu p) as (tr & ->). clear q.
  destruct p as [? ? ? ? ? ? [x y z] [a b c] ? [a' b' c'] ? ? ? ? ? ? ? ? ? ? ? ? ? ? ? ?].
  match goal with |- context [if ?c then _ else _] => destruct c end; cbn; unfold vplus, vscale; cbn;
    repeat split; f_equal; ring.
Qed.

Lemma INR_above x : exists k, x < INR k.
Proof.
  destruct (archimed x) as (H & _). exists (Z.to_nat (Z.max 0 (up x))).
  rewrite INR_IZR_INZ, Z2Nat.id by lia. apply Rlt_le_trans with (IZR (up x)); [exact H|]. apply IZR_le. lia.
Qed.

Section Half.
  Context (build : Build R) (mat : Material R) (options : Options R) (g : Mesh0D R).
  Context (Hgeo : mat_geometry mat = mesh0d_geometry g).
  Context (Hden : 0 < Rsum (m0_densities g)).
  Context (Ht : 0 < m0_energy_barrier_thickness g).
  Context (Hchoose : forall r x y z, 0 <= r < 1 -> exists s, choose_with mat r x y z = Ok s).
  Context (Hffp : o_high_energy_free_flight_paths options = false).
  Context (Hliq : o_mean_free_path_model options <> GASEOUS).

  Let t := m0_energy_barrier_thickness g.
  Let w := S (o_weak_collision_order options).
  Let mfp := Rpower (Rsum (m0_densities g)) (-1 / 3).
  Let pmax := mfp / sqrt PI.

  Lemma half_mfp_pos : 0 < mfp.
  Proof. unfold mfp, Rpower. apply exp_pos. Qed.
  Lemma half_pmax_pos : 0 < pmax.
  Proof. apply Rdiv_lt_0_compat; [exact half_mfp_pos|exact sqrt_pi_pos]. Qed.

  Lemma half_mat_mfp x y z : mat_mfp mat x y z = Ok mfp.
  Proof. apply mat_mfp_R; [rewrite Hgeo; reflexivity|exact Hden]. Qed.

  Lemma step_skip k bcg cs rng n :
    unit_randoms rng ->
    vx (recoil_position (p_pos (cs_particle_1 cs)) (p_dir (cs_particle_1 cs)) bcg) <= 0 ->
    collision_step build mat options k bcg cs rng n = Ok (cs, S n).
  Proof.
    intros Hr Hx. unfold collision_step, choose_collision_partner, choose.
    set (r := recoil_position _ _ _) in *.
    destruct (Hchoose (rng n) (vx r) (vy r) (vz r) (Hr n)) as (s & Hs).
    assert (Hin : mat_inside mat (vx r) (vy r) (vz r) = false).
    { unfold mat_inside. rewrite Hgeo. apply nlt_false. rewrite nZ_R. exact Hx. }
    unfold mbind at 1 2 3, mrandom at 1, mlift at 1. cbv beta. rewrite Hs. unfold mret at 1.
    unfold mbind at 1, mlift at 1. cbv beta iota.
    cbn [p_pos set_p_tracked_vector set_p_tag set_p_weight particle_new vx vy vz]. rewrite Hin.
    unfold mat_inside_energy_barrier. rewrite Hgeo. cbn [mesh0d_geometry g_inside_energy_barrier].
    reflexivity.
  Qed.
  Lemma loop_skip cs rng bcgs :
    unit_randoms rng ->
    Forall (fun b => vx (recoil_position (p_pos (cs_particle_1 cs)) (p_dir (cs_particle_1 cs)) b) <= 0) bcgs ->
    forall k n, collision_loop build mat options k bcgs cs rng n = Ok (cs, (n + length bcgs)%nat).
  Proof.
    intros Hr Hb. induction Hb as [|b bcgs Hb _ IH]; intros k n; simpl.
    - unfold mret. rewrite Nat.add_0_r. reflexivity.
    - unfold mbind. rewrite step_skip by assumption. rewrite IH. f_equal. f_equal. lia.
  Qed.

  Definition outside (d : Vector R) (p : Particle R) : Prop :=
    active p /\ p_asymptotic_deflection p = 0 /\ p_dir p = d /\ p_dir_old p = d /\
    vx (p_pos p) < - t /\ vx (p_pos p) <= - (pmax * sqrt (INR w)).

  Lemma recoil_far p b :
    -1 <= vx (p_dir p) <= 0 -> vx (p_pos p) <= - (pmax * sqrt (INR w)) ->
    0 <= bcg_mfp b -> 0 <= bcg_impact_parameter b <= pmax * sqrt (INR w) ->
    vx (recoil_position (p_pos p) (p_dir p) b) <= 0.
  Proof.
    intros Hd Hx Hm Hb. unfold recoil_position. cbn [vx]. toR.
    set (s := sqrt (1 - vx (p_dir p) * vx (p_dir p))).
    assert (Hs : 0 <= s <= 1).
    { split; [apply sqrt_pos|]. rewrite <- sqrt_1. apply sqrt_le_1; nra. }
    pose proof (COS_bound (bcg_phi_azimuthal b)) as Hc.
    assert (H1 : bcg_mfp b * vx (p_dir p) <= 0) by nra.
    assert (H2 : -1 <= cos (bcg_phi_azimuthal b) * s <= 1) by (split; nra).
    rewrite Rmult_assoc.
    assert (H3 : - bcg_impact_parameter b <= bcg_impact_parameter b * (cos (bcg_phi_azimuthal b) * s)) by nra.
    lra.
  Qed.

  (** a step without collisions and without electronic stopping *)
  Lemma free_step p particles rng n :
    unit_randoms rng -> active p -> p_asymptotic_deflection p = 0 ->
    let L := sampled_path options (p_first_step p) mfp rng (n + w + w) in
    (forall k, (k < w)%nat ->
       vx (recoil_position (p_pos p) (p_dir p)
             (mkBCG (2 * PI * rng (n + k)%nat) (pmax * sqrt (rng (n + w + k)%nat + INR k)) L)) <= 0) ->
    vx (p_pos p) + L * vx (p_dir_old p) <= 0 ->
    exists q,
      p_pos q = vplus (p_pos p) (vscale L (p_dir_old p)) /\ p_pos_old q = p_pos p /\
      p_dir q = p_dir p /\ p_dir_old q = p_dir p /\ p_asymptotic_deflection q = 0 /\
      p_first_step q = false /\ active q /\ p_E q = p_E p /\ p_backreflected q = p_backreflected p /\
      same_identity p q /\
      forall p', boundary_condition_planar mat q = Ok p' ->
        exists n', bca_step build mat options p particles rng n = Ok ((p', particles), n').
  Proof.
    intros Hr (Hst & Hle) Has L Hrec Hxend.
    pose proof half_mfp_pos as Hmp. pose proof half_pmax_pos as Hpp.
    destruct (determine_value mat options p rng n mfp Hffp (half_mat_mfp _ _ _)) as (n1 & Hv & _).
    fold w in Hv. fold L in Hv.
    set (p0 := if p_first_step p then set_p_first_step false p else p) in Hv.
    set (bcgs := map _ (seq 0 w)) in Hv.
    assert (Hp0 : p_pos p0 = p_pos p /\ p_dir p0 = p_dir p /\ p_dir_old p0 = p_dir_old p /\ p_asymptotic_deflection p0 = 0 /\
                  p_first_step p0 = false /\ p_stopped p0 = false /\ p_left p0 = false /\ p_E p0 = p_E p /\
                  p_backreflected p0 = p_backreflected p /\ same_identity p p0).
    { unfold p0. destruct (p_first_step p) eqn:E; cbn; repeat split; assumption. }
    destruct Hp0 as (Hpos0 & Hdir0 & Hdo0 & Has0 & Hfs0 & Hst0 & Hle0 & HE0 & Hb0 & Hid0).
    assert (Hlen : length bcgs = w) by (unfold bcgs; rewrite map_length, seq_length; reflexivity).
    set (cs := mkCS p0 particles (nZ 0) (nZ 0) (nZ 0) (nZ 0) 0%nat).
    assert (Hloop : collision_loop build mat options 0 (firstn w bcgs) cs rng n1 = Ok (cs, (n1 + w)%nat)).
    { rewrite firstn_all2 by (rewrite Hlen; apply Nat.le_refl). rewrite loop_skip; [rewrite Hlen; reflexivity|exact Hr|].
      apply Forall_forall. intros b Hb. unfold bcgs in Hb. apply in_map_iff in Hb. destruct Hb as (k & <- & Hk).
      apply in_seq in Hk. cbn [cs cs_particle_1]. rewrite Hpos0, Hdir0.
      specialize (Hrec k ltac:(lia)). rewrite cSQRTPI_R, nZ_R, nnat_R. exact Hrec. }
    assert (Hi : exists b0, idx bcgs 0 = Ok b0 /\ bcg_mfp b0 = L).
    { unfold bcgs, w. cbn [seq map]. eexists. split; [reflexivity|]. reflexivity. }
    destruct Hi as (b0 & Hi & HbL).
    set (q := fst (advance (bcg_mfp b0) (nZ 0) p0)).
    destruct (advance_fields (bcg_mfp b0) (nZ 0) p0) as (A1 & A2 & A3 & A4 & A5 & A6 & A7 & A8 & A9 & A10 & A11).
    fold q in A1, A2, A3, A4, A5, A6, A7, A8, A9, A10, A11.
    rewrite nZ_R in A1, A5. rewrite HbL, Has0, Hpos0, Hdo0 in A1. replace (L + 0 - 0) with L in A1 by ring.
    set (dist := snd (advance (bcg_mfp b0) (nZ 0) p0)).
    assert (Hadv : advance (bcg_mfp b0) (cs_total_asymptotic_deflection cs) (cs_particle_1 cs) = (q, dist)).
    { unfold q, dist. cbn [cs cs_total_asymptotic_deflection cs_particle_1]. destruct (advance _ _ _); reflexivity. }
    assert (Hin : mat_inside mat (vx (p_pos q)) (vy (p_pos q)) (vz (p_pos q)) = false).
    { unfold mat_inside. rewrite Hgeo. cbn [mesh0d_geometry g_inside]. apply nlt_false. rewrite nZ_R.
      rewrite A1. exact Hxend. }
    assert (Hsub : forall x0 scZ sci, subtract_electronic_stopping_energy mat options q dist x0 scZ sci = Ok (q, 0)).
    { intros x0 scZ sci. unfold subtract_electronic_stopping_energy. rewrite Hin.
      change (rassert (negb (nis_nan (p_E q)))) with (Ok tt). cbn [bind]. rewrite nZ_R. reflexivity. }
    set (q2 := update_energy_loss_tracker options (cs_total_energy_lost_to_recoils cs) 0 q).
    exists q2.
    destruct (loss_tracker_frame options (cs_total_energy_lost_to_recoils cs) 0 q) as (l & E).
    assert (Hs : same_identity p q2).
    { apply same_identity_trans with p0; [exact Hid0|]. apply same_identity_trans with q; [exact A11|].
      unfold q2. rewrite E. repeat split. }
    assert (Hq2 : q2 = set_p_energies l q) by exact E.
    split; [rewrite (f_equal p_pos Hq2); exact A1|].
    split; [rewrite (f_equal p_pos_old Hq2); change (p_pos_old q = p_pos p); congruence|].
    split; [rewrite (f_equal p_dir Hq2); change (p_dir q = p_dir p); congruence|].
    split; [rewrite (f_equal p_dir_old Hq2); change (p_dir_old q = p_dir p); congruence|].
    split; [rewrite (f_equal p_asymptotic_deflection Hq2); exact A5|].
    split; [rewrite (f_equal p_first_step Hq2); change (p_first_step q = false); congruence|].
    split; [split; [rewrite (f_equal p_stopped Hq2); change (p_stopped q = false)|rewrite (f_equal p_left Hq2); change (p_left q = false)]; congruence|].
    split; [rewrite (f_equal p_E Hq2); change (p_E q = p_E p); congruence|].
    split; [rewrite (f_equal p_backreflected Hq2); change (p_backreflected q = p_backreflected p); congruence|].
    split; [exact Hs|].
    intros p' Hp'. exists (n1 + w)%nat. unfold bca_step. unfold mbind at 1. rewrite Hv.
    unfold mbind at 1. fold w. fold cs. rewrite Hloop. unfold mbind at 1, mlift at 1. rewrite Hi.
    rewrite Hadv. unfold mbind at 1, mlift at 1. rewrite Hsub. fold q2.
    unfold mbind at 1, mlift at 1. rewrite Hp'. reflexivity.
  Qed.

  Lemma half_barrier v : mat_inside_energy_barrier mat (vx v) (vy v) (vz v) = Ok (nlt (- t) (vx v)).
  Proof. unfold mat_inside_energy_barrier. rewrite Hgeo. reflexivity. Qed.
  Lemma half_boundary v : mat_inside_simulation_boundary mat (vx v) (vy v) (vz v) = nlt (-10 * t) (vx v).
  Proof.
    unfold mat_inside_simulation_boundary. rewrite Hgeo. cbn [mesh0d_geometry g_inside_simulation_boundary].
    toR. reflexivity.
  Qed.

  Lemma outside_step d p particles rng n :
    unit_randoms rng -> -1 <= vx d <= 0 -> outside d p ->
    exists p' n' L,
      bca_step build mat options p particles rng n = Ok ((p', particles), n') /\
      p_pos p' = vplus (p_pos p) (vscale L d) /\ 0 <= L /\ (p_first_step p = false -> L = mfp) /\
      p_first_step p' = false /\ p_stopped p' = false /\
      (p_left p' = true <-> vx (p_pos p') <= -10 * t) /\
      (p_left p' = false -> outside d p').
  Proof.
    intros Hr Hd (Hact & Has & Hdir & Hdo & Hx & Hxp).
    pose proof half_mfp_pos as Hmp. pose proof half_pmax_pos as Hpp.
    set (L := sampled_path options (p_first_step p) mfp rng (n + w + w)).
    assert (HL : 0 <= L /\ (p_first_step p = false -> L = mfp)).
    { unfold L, sampled_path. toR. pose proof (Hr (n + w + w)%nat) as Hrn.
      destruct (o_mean_free_path_model options) eqn:E; [| congruence |];
        (destruct (p_first_step p); split; [nra|discriminate|lra|reflexivity]). }
    destruct HL as (HL0 & HLm).
    assert (HLd : L * vx d <= 0) by nra.
    destruct (free_step p particles rng n Hr Hact Has) as
      (q & Hqp & Hqpo & Hqd & Hqdo & Hqa & Hqf & (Hqs & Hql) & HqE & Hqb & _ & Hbound).
    { intros k Hk. fold L. apply recoil_far; [rewrite Hdir; exact Hd|exact Hxp|exact HL0|].
      cbn [bcg_impact_parameter].
      destruct (annulus mfp k (rng (n + w + k)%nat) Hmp (Hr _)) as (H1 & H2). fold pmax in H1, H2.
      pose proof (sqrt_pos (INR k)). split; [nra|].
      apply Rle_trans with (pmax * sqrt (INR (S k))); [lra|].
      apply Rmult_le_compat_l; [lra|]. apply sqrt_le_1; [apply pos_INR|apply pos_INR|].
      apply le_INR. lia. }
    { fold L. rewrite Hdo. fold t in Ht. lra. }
    fold L in Hqp. rewrite Hdo in Hqp. rewrite Hdir in Hqd, Hqdo.
    assert (Hqx : vx (p_pos q) = vx (p_pos p) + L * vx d) by (rewrite Hqp; reflexivity).
    assert (Hqlt : vx (p_pos q) < - t) by (rewrite Hqx; lra).
    assert (Hbar : forall v, vx v < - t -> mat_inside_energy_barrier mat (vx v) (vy v) (vz v) = Ok false).
    { intros v Hvx. rewrite half_barrier. f_equal. apply nlt_false. lra. }
    destruct (nlt (-10 * t) (vx (p_pos q))) eqn:Hb10.
    - (* still inside the simulation boundary *)
      assert (Hsbe : surface_binding_energy mat q = Ok q).
      { unfold surface_binding_energy.
        assert (Hs : exists Es, actual_surface_binding_energy mat q (vx (p_pos_old q)) (vy (p_pos_old q)) (vz (p_pos_old q)) = Ok Es).
        { unfold actual_surface_binding_energy. rewrite Hgeo. cbn [mesh0d_geometry g_get_concentrations bind].
          eexists. reflexivity. }
        destruct Hs as (Es & ->). cbn [bind]. rewrite (Hbar _ Hqlt). cbn [bind].
        rewrite Hbar; [reflexivity|]. rewrite Hqpo. exact Hx. }
      assert (Hbp : boundary_condition_planar mat q = Ok q).
      { unfold boundary_condition_planar. rewrite half_boundary, Hb10, (Hbar _ Hqlt). cbn [negb bind].
        rewrite andb_false_r. cbv iota. rewrite Hqs, Hql. exact Hsbe. }
      destruct (Hbound q Hbp) as (n' & Hstep).
      exists q, n', L. split; [exact Hstep|]. split; [congruence|]. split; [exact HL0|]. split; [exact HLm|].
      split; [exact Hqf|]. split; [exact Hqs|]. apply nlt_true in Hb10.
      split; [split; intros H; [congruence|lra]|]. intros _.
      repeat split; try assumption. rewrite Hqx. lra.
    - (* left *)
      set (q3 := update_trajectory_tracker (set_p_left true q)).
      assert (Hq3 : p_pos q3 = p_pos q /\ p_first_step q3 = false /\ p_stopped q3 = false /\ p_left q3 = true).
      { unfold q3, update_trajectory_tracker. cbn. destruct (p_track_trajectories q); cbn; auto. }
      destruct Hq3 as (Hq3p & Hq3f & Hq3s & Hq3l).
      assert (Hbp : boundary_condition_planar mat q = Ok q3).
      { unfold boundary_condition_planar. rewrite half_boundary, Hb10, (Hbar _ Hqlt). cbn [negb bind]. fold q3.
        rewrite andb_false_r. cbv iota. rewrite Hq3s, Hq3l. reflexivity. }
      destruct (Hbound q3 Hbp) as (n' & Hstep).
      exists q3, n', L. split; [exact Hstep|]. split; [congruence|]. split; [exact HL0|]. split; [exact HLm|].
      split; [exact Hq3f|]. split; [exact Hq3s|]. apply nlt_false in Hb10.
      split; [split; intros _; [congruence|exact Hq3l]|]. congruence.
  Qed.

  (** parallel to the surface: it never ends *)
  Lemma parallel_loop d rng fuel : unit_randoms rng -> vx d = 0 -> forall p particles i n,
    outside d p -> -10 * t < vx (p_pos p) ->
    bca_loop build mat options fuel p particles i rng n = OutOfFuel.
  Proof.
    intros Hr Hd. induction fuel as [|fuel IH]; intros p particles i n Ho Hx; [reflexivity|].
    cbn [bca_loop]. rewrite active_test by apply Ho.
    destruct (outside_step d p particles rng n Hr ltac:(lra) Ho) as (p' & n' & L & Hs & Hp & _ & _ & _ & _ & Hl & Hl').
    unfold mbind. rewrite Hs.
    assert (Hx' : vx (p_pos p') = vx (p_pos p)) by (rewrite Hp; cbn; rewrite Hd; ring).
    assert (Hlf : p_left p' = false).
    { destruct (p_left p') eqn:E; [|reflexivity]. destruct Hl as (Hl & _). specialize (Hl eq_refl). lra. }
    apply IH; [auto|rewrite Hx'; exact Hx].
  Qed.
  Lemma parallel_never_ends d rng p fuel n :
    unit_randoms rng -> vx d = 0 -> outside d p -> -10 * t < vx (p_pos p) ->
    single_ion_bca build mat options fuel p rng n = OutOfFuel.
  Proof.
    intros Hr Hd Ho Hx. unfold single_ion_bca. destruct fuel as [|fuel]; [reflexivity|].
    cbn [stack_loop]. unfold mbind. rewrite (parallel_loop d) by assumption. reflexivity.
  Qed.

  (** moving away: it leaves *)
  Lemma outward_loop d rng : unit_randoms rng -> -1 <= vx d < 0 -> forall k p particles i n,
    outside d p -> p_first_step p = false ->
    vx (p_pos p) + INR k * (mfp * vx d) <= -10 * t ->
    exists fuel p' n' i', bca_loop build mat options fuel p particles i rng n = Ok ((p', particles, i'), n') /\
      p_left p' = true /\ i' = length particles /\ (k <= fuel)%nat.
  Proof.
    intros Hr Hd. pose proof half_mfp_pos as Hmp.
    assert (Hfin : forall p particles n i, ~ active p ->
      bca_loop build mat options 1 p particles i rng n = Ok ((p, particles, i), n)).
    { intros p particles n i H. cbn [bca_loop]. rewrite not_active_test by exact H. reflexivity. }
    induction k as [|k IH]; intros p particles i n Ho Hf Hx.
    - destruct (outside_step d p particles rng n Hr ltac:(lra) Ho) as (p' & n' & L & Hs & Hp & HL & _ & _ & _ & Hl & _).
      assert (Hl' : p_left p' = true).
      { apply Hl. rewrite Hp. cbn. simpl in Hx. nra. }
      exists 2%nat, p', n', (length particles).
      split; [|split; [exact Hl'|split; [reflexivity|lia]]].
      cbn [bca_loop]. rewrite active_test by apply Ho. unfold mbind at 1. rewrite Hs.
      rewrite not_active_test; [reflexivity|]. intros (_ & H). congruence.
    - destruct (outside_step d p particles rng n Hr ltac:(lra) Ho) as (p' & n' & L & Hs & Hp & HL & HLm & Hf' & _ & Hl & Ho').
      specialize (HLm Hf). subst L.
      destruct (p_left p') eqn:E.
      + exists (S (S k)), p', n', (length particles).
        split; [|split; [exact E|split; [reflexivity|lia]]].
        cbn [bca_loop]. rewrite active_test by apply Ho. unfold mbind at 1. rewrite Hs.
        rewrite not_active_test; [reflexivity|]. intros (_ & H). congruence.
      + assert (Hx' : vx (p_pos p') + INR k * (mfp * vx d) <= -10 * t).
        { rewrite Hp. cbn [vplus vscale vx]. rewrite S_INR in Hx. lra. }
        destruct (IH p' particles (length particles) n' (Ho' eq_refl) Hf' Hx') as (fuel & p2 & n2 & i2 & Hb & Hl2 & Hi2 & Hfu).
        exists (S fuel), p2, n2, i2. split; [|split; [exact Hl2|split; [exact Hi2|lia]]].
        cbn [bca_loop]. rewrite active_test by apply Ho. unfold mbind at 1. rewrite Hs. exact Hb.
  Qed.
  Lemma outward_leaves d rng p n :
    unit_randoms rng -> -1 <= vx d < 0 -> outside d p ->
    exists N p' n', p_left p' = true /\
      forall fuel, (N <= fuel)%nat -> single_ion_bca build mat options fuel p rng n = Ok ([p'], n').
  Proof.
    intros Hr Hd Ho. pose proof half_mfp_pos as Hmp.
    assert (Hloop : exists fuel p' n' i', bca_loop build mat options fuel p [] 1 rng n = Ok ((p', [], i'), n') /\
      p_left p' = true /\ i' = 0%nat).
    { destruct (outside_step d p [] rng n Hr ltac:(lra) Ho) as (p1 & n1 & L & Hs & Hp & HL & _ & Hf1 & _ & Hl1 & Ho1).
      destruct (p_left p1) eqn:E.
      - exists 2%nat, p1, n1, 0%nat. split; [|auto].
        cbn [bca_loop]. rewrite active_test by apply Ho. unfold mbind at 1. rewrite Hs.
        rewrite not_active_test; [reflexivity|]. intros (_ & H). congruence.
      - assert (Hk : exists k, vx (p_pos p1) + INR k * (mfp * vx d) <= -10 * t).
        { assert (Hc : 0 < mfp * - vx d) by (apply Rmult_lt_0_compat; lra).
          destruct (INR_above ((vx (p_pos p1) + 10 * t) / (mfp * - vx d))) as (k & Hk).
          exists k. assert (H : (vx (p_pos p1) + 10 * t) / (mfp * - vx d) * (mfp * - vx d) < INR k * (mfp * - vx d))
            by (apply Rmult_lt_compat_r; assumption).
          unfold Rdiv in H. rewrite Rmult_assoc, Rinv_l, Rmult_1_r in H by lra. lra. }
        destruct Hk as (k & Hk).
        destruct (outward_loop d rng Hr Hd k p1 [] 0%nat n1 (Ho1 eq_refl) Hf1 Hk) as (fuel & p2 & n2 & i2 & Hb & Hl2 & Hi2 & _).
        exists (S fuel), p2, n2, i2. split; [|auto].
        cbn [bca_loop]. rewrite active_test by apply Ho. unfold mbind at 1. rewrite Hs. exact Hb. }
    destruct Hloop as (fuel & p' & n' & i' & Hb & Hl & ->).
    exists (S (S fuel)), p', n'. split; [exact Hl|]. intros fuel2 Hf2.
    apply single_ion_mono with (S (S fuel)); [exact Hf2| |discriminate].
    unfold single_ion_bca. cbn [stack_loop]. unfold mbind at 1.
    rewrite (bca_loop_mono build mat options fuel (S (S fuel)) p [] 1 rng n _ ltac:(lia) Hb ltac:(discriminate)).
    reflexivity.
  Qed.
End Half.
