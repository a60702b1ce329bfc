(** * ProofsMaterial.v - species choice, averages, binding energies, stopping (material.rs) *)
From Coq Require Import ZArith List Bool Lia Reals Lra.
From Verif Require Import Num ModelTypes ModelConsts ModelParticle ModelInteractions ModelGeometry
  ModelMaterial ModelBca Spec ProofsBase ProofsBca NumR SpecR ProofsStep ProofsSampling ProofsEnergy.
Import ListNotations.
Open Scope nat_scope.

Section Generic.
  Context {F : Type} {NF : Num F}.

  (** the outcome of the scan *)
  Lemma choose_index_none r : forall (l : list F) k,
    choose_index r k l = None <-> Forall (fun c => nlt r c = false) l.
  Proof.
    induction l as [|c l IH]; intros k; simpl.
    - split; [constructor|reflexivity].
    - destruct (nlt r c) eqn:E.
      + split; [discriminate|]. intros H. inversion H. congruence.
      + rewrite IH. split; intros H; [constructor; assumption|inversion H; assumption].
  Qed.
  Lemma choose_index_some r : forall (l : list F) k i,
    choose_index r k l = Some i ->
    k <= i < k + length l /\
    (exists c, nth_error l (i - k) = Some c /\ nlt r c = true) /\
    (forall j c, j < i - k -> nth_error l j = Some c -> nlt r c = false).
  Proof.
    induction l as [|c l IH]; intros k i; simpl; [discriminate|].
    destruct (nlt r c) eqn:E.
    - intros H. injection H as <-. split; [lia|]. rewrite Nat.sub_diag. split.
      + exists c. auto.
      + intros j d Hj. lia.
    - intros H. apply IH in H. destruct H as (Hb & (d & Hd & Hd') & Hall).
      split; [lia|]. replace (i - k) with (S (i - S k)) by lia. split.
      + exists d. auto.
      + intros [|j] d' Hj Hn; simpl in Hn.
        * congruence.
        * apply (Hall j); [lia|exact Hn].
  Qed.
  Lemma cumulative_length (l : list F) : forall a, length (cumulative_from a l) = length l.
  Proof. induction l as [|c l IH]; intros a; simpl; [reflexivity|]. rewrite IH. reflexivity. Qed.

  Lemma weighted_sum_eq (vs cs : list F) : weighted_sum vs cs = nsum (map (fun vc => fst vc *! snd vc) (combine vs cs)).
  Proof. reflexivity. Qed.

  (** ** C29: the bulk binding model is never consulted *)
  Definition with_bulk_model (m : BulkBindingModel) (mat : Material F) : Material F := {|
    mat_m := mat_m mat; mat_Z := mat_Z mat; mat_Eb := mat_Eb mat; mat_Es := mat_Es mat; mat_Ec := mat_Ec mat;
    mat_Ed := mat_Ed mat; mat_interaction_index := mat_interaction_index mat; mat_geometry := mat_geometry mat;
    mat_surface_binding_model := mat_surface_binding_model mat; mat_bulk_binding_model := m |}.
  Lemma collision_step_ignores_bulk m build mat options k bcg cs :
    collision_step build (with_bulk_model m mat) options k bcg cs = collision_step build mat options k bcg cs.
  Proof. reflexivity. Qed.
  Lemma mbind_ext {A B} (a : M F A) (f g : A -> M F B) rng n :
    (forall x k, f x rng k = g x rng k) -> mbind a f rng n = mbind a g rng n.
  Proof. intros H. unfold mbind. destruct (a rng n) as [[x k]|?|]; auto. Qed.
  Lemma collision_loop_ignores_bulk m build mat options rng bcgs : forall k cs n,
    collision_loop build (with_bulk_model m mat) options k bcgs cs rng n
    = collision_loop build mat options k bcgs cs rng n.
  Proof.
    induction bcgs as [|bcg bcgs IH]; intros k cs n; [reflexivity|]. cbn [collision_loop].
    rewrite collision_step_ignores_bulk. apply mbind_ext. intros x j. apply IH.
  Qed.
  Lemma step_ignores_bulk m build mat options p particles rng n :
    bca_step build (with_bulk_model m mat) options p particles rng n = bca_step build mat options p particles rng n.
  Proof.
    unfold bca_step.
    change (determine_mfp_phi_impact_parameter (with_bulk_model m mat) options p)
      with (determine_mfp_phi_impact_parameter mat options p).
    apply mbind_ext. intros [p1 bcgs] k.
    transitivity (mbind (collision_loop build mat options 0 (firstn (S (o_weak_collision_order options)) bcgs)
      (mkCS p1 particles (nZ 0) (nZ 0) (nZ 0) (nZ 0) 0))
      (fun cs =>
        do! bcg0 := mlift (idx bcgs 0) in
        let (p1, distance_traveled) :=
          advance (bcg_mfp bcg0) (cs_total_asymptotic_deflection cs) (cs_particle_1 cs) in
        do! (p1, energy_lost_to_electronic_stopping) :=
          mlift (subtract_electronic_stopping_energy (with_bulk_model m mat) options p1 distance_traveled
                   (cs_normalized_distance_of_closest_approach cs) (cs_strong_collision_Z cs)
                   (cs_strong_collision_index cs)) in
        let p1 := update_energy_loss_tracker options (cs_total_energy_lost_to_recoils cs)
                    energy_lost_to_electronic_stopping p1 in
        do! p1 := mlift (boundary_condition_planar (with_bulk_model m mat) p1) in
        mret (p1, cs_particles cs)) rng k); [unfold mbind at 1 6; rewrite collision_loop_ignores_bulk; reflexivity|].
    apply mbind_ext. intros cs k'. reflexivity.
  Qed.
  Lemma loop_ignores_bulk m build mat options rng fuel : forall p particles i n,
    bca_loop build (with_bulk_model m mat) options fuel p particles i rng n
    = bca_loop build mat options fuel p particles i rng n.
  Proof.
    induction fuel as [|fuel IH]; intros p particles i n; [reflexivity|]. cbn [bca_loop].
    destruct (negb (p_stopped p) && negb (p_left p)); [|reflexivity].
    unfold mbind. rewrite step_ignores_bulk. destruct (bca_step build mat options p particles rng n) as [[[? ?] ?]|?|]; auto.
  Qed.
  Lemma stack_ignores_bulk m build mat options rng fuel : forall particles out i n,
    stack_loop build (with_bulk_model m mat) options fuel particles out i rng n
    = stack_loop build mat options fuel particles out i rng n.
  Proof.
    induction fuel as [|fuel IH]; intros particles out i n; [reflexivity|]. cbn [stack_loop].
    destruct i; [reflexivity|]. destruct particles; [reflexivity|].
    unfold mbind. rewrite loop_ignores_bulk.
    destruct (bca_loop build mat options (S fuel) p particles (S i) rng n) as [[[[? ?] ?] ?]|?|]; auto.
  Qed.
End Generic.

(** ** exact arithmetic *)
Open Scope R_scope.

(** *** C25 *)
Lemma cumulative_nth (cs : list R) : forall a j,
  (j < length cs)%nat -> nth_error (cumulative_from a cs) j = Some (a + Rsum (firstn (S j) cs)).
Proof.
  induction cs as [|c cs IH]; intros a j Hj; simpl in Hj; [lia|].
  destruct j as [|j]; cbn [cumulative_from nth_error].
  - f_equal. toR. cbn. ring.
  - rewrite IH by lia. f_equal. toR. cbn [firstn]. unfold Rsum. cbn [fold_right]. ring.
Qed.
Lemma Rsum_firstn_mono (cs : list R) : Forall (fun c => 0 <= c) cs ->
  forall i j, (i <= j)%nat -> Rsum (firstn i cs) <= Rsum (firstn j cs).
Proof.
  induction 1 as [|c cs Hc Hcs IH]; intros i j Hij.
  - rewrite !firstn_nil. lra.
  - destruct i as [|i], j as [|j]; cbn [firstn]; try lia; unfold Rsum; cbn [fold_right].
    + lra.
    + specialize (IH 0%nat j ltac:(lia)). cbn [firstn] in IH. unfold Rsum in IH. cbn [fold_right] in IH.
      change (fold_right Rplus 0 (firstn j cs)) with (Rsum (firstn j cs)) in *. unfold Rsum in *. lra.
    + specialize (IH i j ltac:(lia)). unfold Rsum in IH. lra.
Qed.
Lemma Rsum_firstn_S (cs : list R) : forall i c, nth_error cs i = Some c ->
  Rsum (firstn (S i) cs) = Rsum (firstn i cs) + c.
Proof.
  induction cs as [|d cs IH]; intros [|i] c H; simpl in H; try discriminate.
  - injection H as ->. cbn. ring.
  - cbn [firstn] in *. unfold Rsum in *. cbn [fold_right]. rewrite (IH i c H). ring.
Qed.

Lemma choose_index_R (cs : list R) r :
  Forall (fun c => 0 <= c) cs -> Rsum cs = 1 -> 0 <= r < 1 ->
  exists i, choose_index r 0 (cumulative_from (nZ 0) cs) = Some i /\ (i < length cs)%nat /\
    Rsum (firstn i cs) <= r < Rsum (firstn (S i) cs).
Proof.
  intros Hc Hs Hr.
  assert (Hcum : forall j, (j < length cs)%nat -> nth_error (cumulative_from (nZ 0) cs) j = Some (Rsum (firstn (S j) cs))).
  { intros j Hj. rewrite cumulative_nth by exact Hj. f_equal. toR. ring. }
  destruct (choose_index r 0 (cumulative_from (nZ 0) cs)) as [i|] eqn:E.
  - exists i. split; [reflexivity|]. apply choose_index_some in E. rewrite Nat.sub_0_r in E.
    destruct E as (Hi & (c & Hn & Hlt) & Hall). rewrite cumulative_length in Hi.
    rewrite (Hcum i) in Hn by lia. injection Hn as <-. apply nlt_true in Hlt.
    split; [lia|]. split; [|exact Hlt].
    destruct i as [|i]; [cbn; lra|].
    apply nlt_false. apply (Hall i); [lia|]. apply Hcum. lia.
  - exfalso. apply choose_index_none in E.
    destruct cs as [|c0 cs0]; [cbn in Hs; lra|]. set (cs := c0 :: cs0) in *.
    assert (Hl : (length cs - 1 < length cs)%nat) by (cbn; lia).
    pose proof (Hcum _ Hl) as Hn. apply nth_error_In in Hn. rewrite Forall_forall in E. apply E in Hn.
    apply nlt_false in Hn. replace (S (length cs - 1)) with (length cs) in Hn by lia.
    rewrite firstn_all in Hn. lra.
Qed.
Lemma interval_unique (cs : list R) r i j : Forall (fun c => 0 <= c) cs ->
  Rsum (firstn i cs) <= r < Rsum (firstn (S i) cs) -> Rsum (firstn j cs) <= r < Rsum (firstn (S j) cs) -> i = j.
Proof.
  intros Hc Hi Hj. destruct (Nat.lt_trichotomy i j) as [H|[H|H]]; [|exact H|]; exfalso.
  - pose proof (Rsum_firstn_mono cs Hc (S i) j ltac:(lia)). lra.
  - pose proof (Rsum_firstn_mono cs Hc (S j) i ltac:(lia)). lra.
Qed.

(** all per-species arrays reach as far as the concentrations *)
Definition arrays_cover (mat : Material R) (n : nat) : Prop :=
  (n <= length (mat_Z mat))%nat /\ (n <= length (mat_m mat))%nat /\ (n <= length (mat_Ec mat))%nat /\
  (n <= length (mat_Es mat))%nat /\ (n <= length (mat_Ed mat))%nat /\ (n <= length (mat_interaction_index mat))%nat.

Lemma choose_R (mat : Material R) x y z cs rng n :
  g_get_concentrations (mat_geometry mat) x y z = Ok cs ->
  Forall (fun c => 0 <= c) cs -> Rsum cs = 1 -> arrays_cover mat (length cs) -> 0 <= rng n < 1 ->
  exists s, choose mat x y z rng n = Ok (s, S n) /\
    nth_error (mat_Z mat) (s_index s) = Some (s_Z s) /\ nth_error (mat_m mat) (s_index s) = Some (s_m s) /\
    nth_error (mat_Ec mat) (s_index s) = Some (s_Ec s) /\ nth_error (mat_Es mat) (s_index s) = Some (s_Es s) /\
    nth_error (mat_Ed mat) (s_index s) = Some (s_Ed s) /\
    nth_error (mat_interaction_index mat) (s_index s) = Some (s_interaction_index s) /\
    (forall i, i = s_index s <-> Rsum (firstn i cs) <= rng n < Rsum (firstn (S i) cs)).
Proof.
  intros Hg Hc Hs Ha Hr.
  destruct (choose_index_R cs (rng n) Hc Hs Hr) as (i & Hi & Hl & Hin).
  unfold choose, mbind, mrandom, choose_with, get_cumulative_concentrations. rewrite Hg. cbn [bind]. rewrite Hi.
  destruct Ha as (H1 & H2 & H3 & H4 & H5 & H6).
  destruct (idx_lt (mat_Z mat) i ltac:(lia)) as (v1 & E1).
  destruct (idx_lt (mat_m mat) i ltac:(lia)) as (v2 & E2).
  destruct (idx_lt (mat_Ec mat) i ltac:(lia)) as (v3 & E3).
  destruct (idx_lt (mat_Es mat) i ltac:(lia)) as (v4 & E4).
  destruct (idx_lt (mat_Ed mat) i ltac:(lia)) as (v5 & E5).
  destruct (idx_lt (mat_interaction_index mat) i ltac:(lia)) as (v6 & E6).
  rewrite E1. cbn [bind]. rewrite E2. cbn [bind]. rewrite E3. cbn [bind]. rewrite E4. cbn [bind].
  rewrite E5. cbn [bind]. rewrite E6. cbn [bind mlift].
  eexists. split; [reflexivity|]. cbn [s_index s_Z s_m s_Ec s_Es s_Ed s_interaction_index].
  apply idx_ok in E1, E2, E3, E4, E5, E6.
  repeat (split; [assumption|]). intros j. split; [intros ->; exact Hin|].
  intros Hj. exact (interval_unique cs (rng n) j i Hc Hj Hin).
Qed.

(** *** C27 *)
Lemma weighted_sum_bounds (vs cs : list R) lo hi :
  Forall (fun v => lo <= v <= hi) vs -> Forall (fun c => 0 <= c) cs -> (length cs <= length vs)%nat ->
  lo * Rsum cs <= weighted_sum vs cs <= hi * Rsum cs.
Proof.
  rewrite weighted_sum_R. intros Hv. revert cs. induction Hv as [|v vs Hv Hvs IH]; intros [|c cs] Hc Hl; simpl in Hl; try lia.
  - cbn. lra.
  - cbn. lra.
  - inversion_clear Hc. specialize (IH cs H0 ltac:(lia)). unfold Rsum in *. cbn [combine map fold_right fst snd]. nra.
Qed.
Lemma weighted_sum_zero_all (vs cs : list R) :
  Forall (fun v => 0 <= v) vs -> Forall (fun c => 0 < c) cs -> (length vs <= length cs)%nat ->
  weighted_sum vs cs = 0 -> Forall (fun v => v = 0) vs.
Proof.
  intros Hv. revert cs. induction Hv as [|v vs Hv Hvs IH]; intros [|c cs] Hc Hl Hz; simpl in Hl; try lia; [constructor|constructor|].
  inversion_clear Hc.
  assert (Hnn : 0 <= weighted_sum vs cs).
  { apply weighted_sum_nonneg; [exact Hvs|]. eapply Forall_impl; [|exact H0]. cbn. intros; lra. }
  rewrite weighted_sum_R in Hz, Hnn. unfold Rsum in Hz. cbn [combine map fold_right fst snd] in Hz.
  fold (Rsum (map (fun vc : R * R => fst vc * snd vc) (combine vs cs))) in Hz.
  assert (v * c = 0) by nra. assert (v = 0) by nra.
  constructor; [assumption|]. apply (IH cs); [assumption|lia|]. rewrite weighted_sum_R. lra.
Qed.
Lemma Rsum_zero (l : list R) : Forall (fun v => v = 0) l -> Rsum l = 0.
Proof. induction 1; cbn; [reflexivity|]. unfold Rsum in *. lra. Qed.

(** *** C30 *)
Lemma fold_min (l : list R) : forall a,
  let m := fold_left (fun min_Ec Ec => if min_Ec >! Ec then Ec else min_Ec) l a in
  (m = a \/ In m l) /\ m <= a /\ Forall (fun e => m <= e) l.
Proof.
  induction l as [|e l IH]; intros a; cbn [fold_left].
  - cbv zeta. split; [left; reflexivity|]. split; [lra|constructor].
  - specialize (IH (if nlt e a then e else a)). cbv zeta in *. destruct IH as (H1 & H2 & H3).
    set (m := fold_left _ l _) in *. clearbody m.
    destruct (nlt e a) eqn:E; bool_R.
    + split; [right; destruct H1 as [->|H1]; [left; reflexivity|right; exact H1]|].
      split; [lra|]. constructor; [lra|exact H3].
    + split; [destruct H1 as [->|H1]; [left; reflexivity|right; right; exact H1]|].
      split; [lra|]. constructor; [lra|exact H3].
Qed.
Lemma Rsum_ge_each (l : list R) : Forall (fun e => 0 <= e) l -> Forall (fun e => e <= Rsum l) l.
Proof.
  induction 1 as [|e l He Hl IH]; [constructor|].
  pose proof (Rsum_nonneg _ Hl). constructor; unfold Rsum in *; cbn [fold_right]; [lra|].
  eapply Forall_impl; [|exact IH]. cbn. intros; lra.
Qed.
Lemma minimum_cutoff (mat : Material R) :
  mat_Ec mat <> [] -> Forall (fun e => 0 <= e) (mat_Ec mat) ->
  In (minimum_cutoff_energy mat) (mat_Ec mat) /\ Forall (fun e => minimum_cutoff_energy mat <= e) (mat_Ec mat).
Proof.
  intros Hne Hnn. unfold minimum_cutoff_energy.
  pose proof (fold_min (mat_Ec mat) (nsum (mat_Ec mat))) as H. cbv zeta in H.
  set (m := fold_left _ _ _) in *. clearbody m. destruct H as (H1 & H2 & H3). split; [|exact H3].
  destruct H1 as [H1|H1]; [|exact H1].
  rewrite nsum_R in H1. fold (Rsum (mat_Ec mat)) in H1.
  destruct (mat_Ec mat) as [|e l] eqn:E; [congruence|]. left.
  inversion_clear H3. pose proof (Rsum_ge_each _ Hnn) as Hs. inversion_clear Hs. lra.
Qed.

(** *** C31 *)
Lemma nlit_pos m e : (0 < m)%Z -> 0 < (nlit m e : R).
Proof.
  intros Hm. change (0 < Rlit m e). unfold Rlit.
  assert (0 < IZR m) by (apply IZR_lt; exact Hm).
  destruct e; [apply Rmult_lt_0_compat; [assumption|apply IZR_lt; reflexivity]
    |apply Rmult_lt_0_compat; [assumption|apply IZR_lt; apply Z.pow_pos_nonneg; lia]
    |apply Rdiv_lt_0_compat; [assumption|apply IZR_lt; apply Z.pow_pos_nonneg; lia]].
Qed.
Lemma nZ_pos z : (0 < z)%Z -> 0 < (nZ z : R).
Proof. intros. rewrite nZ_R. apply IZR_lt. assumption. Qed.
Lemma npowf_pos_pos (x y : R) : 0 < x -> 0 < npowf x y.
Proof. intros H. rewrite npowf_pos by exact H. unfold Rpower. apply exp_pos. Qed.
Ltac pos := repeat first
  [ assumption | exact PI_RGT_0
  | apply nlit_pos; lia | apply nZ_pos; lia
  | apply npowf_pos_pos
  | apply Rdiv_lt_0_compat | apply Rmult_lt_0_compat | apply Rplus_lt_0_compat
  | apply sqrt_lt_R0 ].

Lemma stopping_low_pos (E Ma Za Zb : R) : 0 < E -> 0 < Ma -> 0 < Za -> 0 < Zb -> 0 < stopping_low E Ma Za Zb.
Proof.
  intros HE HMa HZa HZb. unfold stopping_low, cLINDHARD_SCHARFF_PREFACTOR, cANGSTROM, cQ, cAMU.
  change (@nadd R NumR) with Rplus. change (@nmul R NumR) with Rmult. change (@ndiv R NumR) with Rdiv.
  change (@nsqrt R NumR) with sqrt. pos.
Qed.
Lemma stopping_beta_pos (E Ma : R) : 0 < E -> 0 < Ma -> 0 < stopping_beta E Ma < 1.
Proof.
  intros HE HMa. unfold stopping_beta. change (@nsqrt R NumR) with sqrt.
  set (g := _ +! _). assert (Hg : 1 < g).
  { unfold g, cC. toR.
    assert (0 < E / Ma / (299792458 * 299792458)).
    { apply Rdiv_lt_0_compat; [apply Rdiv_lt_0_compat; assumption|lra]. }
    lra. }
  rewrite npowf_pos by lra. toR.
  assert (Hp : 0 < Rpower g (-2) < 1).
  { split; [unfold Rpower; apply exp_pos|].
    pose proof (Rpower_lt g (-2) 0 Hg ltac:(lra)) as H. rewrite Rpower_O in H by lra. exact H. }
  split; [apply sqrt_lt_R0; lra|]. 
  assert (H : sqrt (1 - Rpower g (-2)) < sqrt 1) by (apply sqrt_lt_1; lra). rewrite sqrt_1 in H. exact H.
Qed.
Lemma stopping_high_pos (E Ma Za Zb : R) : 0 < E -> 0 < Ma -> 0 < Za -> 0 < Zb -> 0 < stopping_high E Ma Za Zb.
Proof.
  intros HE HMa HZa HZb. unfold stopping_high. cbv zeta.
  pose proof (stopping_beta_pos E Ma HE HMa) as (Hb & _). set (beta := stopping_beta E Ma) in *. clearbody beta.
  set (I0 := if nlt Zb (nZ 13) then _ else _).
  assert (HI : 0 < I0).
  { unfold I0. change (@nadd R NumR) with Rplus. change (@nmul R NumR) with Rmult. change (@ndiv R NumR) with Rdiv.
    destruct (nlt Zb (nZ 13)); pos. }
  clearbody I0. set (B := if nlt Zb (nZ 3) then _ else _).
  assert (HB : 0 < B).
  { unfold B. change (@nmul R NumR) with Rmult. change (@ndiv R NumR) with Rdiv. destruct (nlt Zb (nZ 3)); pos. }
  clearbody B. set (eb := nZ 2 *! cME *! _ *! _ /! _).
  assert (Heb : 0 < eb).
  { unfold eb, cME, cC, cQ. change (@nmul R NumR) with Rmult. change (@ndiv R NumR) with Rdiv. pos. }
  clearbody eb. unfold cBETHE_BLOCH_PREFACTOR, cQ, cEPS0, cME, cC.
  change (@nadd R NumR) with Rplus. change (@nmul R NumR) with Rmult. change (@ndiv R NumR) with Rdiv.
  change (@npi R NumR) with PI. change (@nln R NumR) with ln.
  apply Rmult_lt_0_compat; [pos|].
  assert (0 < B / eb) by (apply Rdiv_lt_0_compat; assumption).
  assert (Hl : ln 1 < ln (eb + 1 + B / eb)) by (apply ln_increasing; lra). rewrite ln_1 in Hl.
  rewrite <- (nZ_R 1) in Hl. exact Hl.
Qed.
Lemma stopping_power_low mode ck (E Ma Za Zb : R) :
  mode <> INTERPOLATED -> stopping_power mode ck E Ma Za Zb = ck * stopping_low E Ma Za Zb.
Proof. intros H. unfold stopping_power. destruct mode; try congruence; toR; ring. Qed.
Lemma stopping_power_interpolated ck (E Ma Za Zb : R) :
  stopping_power INTERPOLATED ck E Ma Za Zb = 1 / (1 / stopping_high E Ma Za Zb + 1 / stopping_low E Ma Za Zb * ck).
Proof. unfold stopping_power. rewrite nZ_R. toR. reflexivity. Qed.
Lemma interpolated_decreasing ck ck' (E Ma Za Zb : R) :
  0 < E -> 0 < Ma -> 0 < Za -> 0 < Zb -> 0 <= ck < ck' ->
  0 < stopping_power INTERPOLATED ck' E Ma Za Zb < stopping_power INTERPOLATED ck E Ma Za Zb.
Proof.
  intros HE HMa HZa HZb Hck. rewrite !stopping_power_interpolated.
  pose proof (stopping_low_pos E Ma Za Zb HE HMa HZa HZb) as Hl.
  pose proof (stopping_high_pos E Ma Za Zb HE HMa HZa HZb) as Hh.
  set (l := stopping_low E Ma Za Zb) in *. set (h := stopping_high E Ma Za Zb) in *. clearbody l h.
  assert (0 < 1 / h) by (apply Rdiv_lt_0_compat; lra). assert (0 < 1 / l) by (apply Rdiv_lt_0_compat; lra).
  assert (0 <= 1 / l * ck) by nra. assert (1 / l * ck < 1 / l * ck') by nra.
  split; [apply Rdiv_lt_0_compat; lra|].
  unfold Rdiv. rewrite !Rmult_1_l. apply Rinv_lt_contravar; [|unfold Rdiv in *; rewrite !Rmult_1_l in *; lra].
  unfold Rdiv in *; rewrite !Rmult_1_l in *. apply Rmult_lt_0_compat; lra.
Qed.
