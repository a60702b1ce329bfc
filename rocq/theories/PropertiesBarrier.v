(** * PropertiesBarrier.v - C103: what the surface barrier and the displacements cost *)
From Coq Require Import ZArith List Bool Reals Lra Lia Floats.SpecFloat.
From Verif Require Import Num NumR NumSF ToyLibm ModelTypes ModelConsts ModelParticle ModelInteractions ModelGeometry
  ModelMaterial ModelBca Spec SpecShift SpecR SpecEnergy SpecBarrier ProofsBase ProofsBca ProofsStep ProofsKinematics
  ProofsSurface ProofsFlight ProofsEnergy ProofsLoss ProofsBarrier ToyR ProofsRefute ToyRun ToyLoss ToyBarrier PropertiesEnergy.
Import ListNotations.
Open Scope R_scope.

(** One iteration.  A particle that stays behind the barrier, crosses it, is
    reflected, comes back or leaves never gains energy at the barrier (counting
    what it owes), unless it gets out without paying; displaced atoms are paid
    by the particle that displaced them. *)
Theorem C103_one_iteration_partial :
  forall (build : Build R) (mat : Material R) (options : Options R) B eb p rng n p' recoils n',
    physical mat -> stopping_target mat -> uniform_barrier mat B -> barrier_outside mat -> costs_at_least mat eb ->
    o_electronic_stopping_mode options = LOW_ENERGY_LOCAL ->
    active p -> energy_ok p -> 0 < p_Z p ->
    bca_step build mat options p [] rng n = Ok ((p', recoils), n') -> ~ unpaid mat p p' ->
    free_energy mat B p' + Rsum (map (fun r => p_E r + eb) recoils) <= free_energy mat B p.
Proof.
  intros build mat options B eb p rng n p' new n' Hph Hst HB Hout Hcost Hmode Ha Hp HZ H Hun.
  assert (Hid : same_identity p p') by (pose proof (bca_step_ok _ _ _ _ _ _ _ _ _ _ Ha H) as (X & _); apply X).
  eapply (step_contrib mat B eb) in H; try eassumption; [|split; assumption|constructor].
  destruct H as ((_ & Hw) & He).
  unfold contrib at 1 2 in He. replace (p_incident p') with (p_incident p) in He by apply Hid.
  replace (B p') with (B p) in He by (destruct HB as (_ & X & _); apply X; apply Hid).
  unfold contribs in He. cbn [map] in He. change (Rsum []) with 0 in He.
  assert (E : map (contrib mat B eb) new = map (fun r => p_E r + eb) new).
  { clear -Hw. induction Hw as [|r l (_ & _ & Hi & Ho) _ IH]; [reflexivity|]. cbn [map]. f_equal; [|exact IH].
    unfold contrib, free_energy. rewrite Hi, Ho. ring. }
  rewrite E in He. destruct (p_incident p); lra.
Qed.
Print Assumptions C103_one_iteration_partial.

(** A whole cascade: if no particle gets out without paying, the ion's energy
    pays for the energies of all displaced atoms, for displacing them, and for
    lifting those that left over the barrier. *)
Theorem C103_a_cascade_is_paid_by_the_ion_partial :
  forall (build : Build R) (mat : Material R) (options : Options R) B eb fuel ion rng n out n',
    physical mat -> stopping_target mat -> uniform_barrier mat B -> barrier_outside mat -> costs_at_least mat eb ->
    o_electronic_stopping_mode options = LOW_ENERGY_LOCAL -> never_unpaid build mat options rng ion n ->
    energy_ok ion -> 0 < p_Z ion -> p_incident ion = true ->
    single_ion_bca build mat options fuel ion rng n = Ok (out, n') ->
    exists ion' recoils, out = ion' :: recoils /\ Forall (fun r => p_incident r = false) recoils /\
      Rsum (map (cost_of B eb) recoils) + p_E ion' <=
      free_energy mat B ion + (if p_stopped ion' then B ion else 0).
Proof. intros build mat options B eb. intros. eapply cascade_pays; eassumption. Qed.
Print Assumptions C103_a_cascade_is_paid_by_the_ion_partial.

(** The number of displaced and of sputtered atoms: [es] bounds the surface
    binding energies of the target atoms from below. *)
Theorem C103_sputtered_atoms_are_bounded_partial :
  forall (build : Build R) (mat : Material R) (options : Options R) B eb es fuel ion rng n out n',
    physical mat -> stopping_target mat -> uniform_barrier mat B -> barrier_outside mat -> costs_at_least mat eb ->
    (forall i r, atom_of_species mat i r -> es <= B r) -> 0 <= es ->
    o_electronic_stopping_mode options = LOW_ENERGY_LOCAL -> never_unpaid build mat options rng ion n ->
    energy_ok ion -> 0 < p_Z ion -> p_incident ion = true ->
    single_ion_bca build mat options fuel ion rng n = Ok (out, n') ->
    INR (length (displaced out)) * eb + INR (length (sputtered_atoms out)) * es <= p_E ion + B ion.
Proof.
  intros build mat options B eb es fuel ion rng n out n' Hph Hst HB Hout Hcost Hes Hes0 Hmode Hnu Hi HZ Hinc H.
  assert (HEn : Forall energy_ok out) by (eapply run_energy_ok; eassumption).
  assert (Hat : Forall (fun r => exists i, atom_of_species mat i r) (tl out)).
  { pose proof (run_recoils _ _ _ _ _ _ _ _ _ H) as Hr. eapply Forall_impl; [|exact Hr]. intros r Hr'. apply Hr'. }
  pose proof (run_first _ _ _ _ _ _ _ _ _ H) as (ionf & rsf & Ef & Hid & _).
  eapply (cascade_pays mat B eb) in H; try eassumption.
  destruct H as (ion' & rs & E0 & Hrs & He). rewrite E0 in Ef. injection Ef as <- <-. subst out.
  assert (Hdis : p_incident ion' = true) by (rewrite <- Hinc; symmetry; apply Hid). cbn [tl] in Hat. inversion_clear HEn as [|? ? HE1 HErs].
  assert (Hb : 0 <= B ion) by (eapply B_nonneg; eassumption).
  assert (Hfe : free_energy mat B ion <= p_E ion) by (unfold free_energy; destruct (owes mat ion); lra).
  destruct HE1 as [HE1 _ _ _].
  assert (Hsum : INR (length (displaced rs)) * eb + INR (length (sputtered_atoms rs)) * es <= Rsum (map (cost_of B eb) rs)).
  { clear He. induction rs as [|r rs IH]; [cbn; lra|]. inversion_clear Hrs as [|? ? Hr1 Hr2]. inversion_clear Hat as [|? ? (i & Ha1) Ha2]. inversion_clear HErs as [|? ? [HE _ _ _] HE2].
    specialize (IH Hr2 Ha2 HE2). unfold displaced, sputtered_atoms, Rsum in *. cbn [filter map fold_right]. rewrite Hr1. cbn [negb andb].
    apply Hes in Ha1. unfold cost_of at 1. cbn [length]. rewrite S_INR. destruct (p_left r); cbn [length]; rewrite ?S_INR; lra. }
  unfold displaced, sputtered_atoms in *. cbn [filter]. rewrite Hdis. cbn [negb andb].
  destruct (p_stopped ion'); lra.
Qed.
Print Assumptions C103_sputtered_atoms_are_bounded_partial.

(** the ion of C90_applies, bound by 1 to a target whose atoms are bound by 1 *)
Lemma r_uniform : uniform_barrier (r_material 1 1) p_Es.
Proof.
  split; [|split; auto]. intros p x y z e H. unfold actual_surface_binding_energy in H. cbn [r_material mat_geometry mesh0d_geometry g_get_concentrations bind mat_surface_binding_model] in H.
  apply ok_inj in H. symmetry. exact H.
Qed.
Lemma r_costs : costs_at_least (r_material 1 1) 0.
Proof.
  split; [lra|]. intros x y z e H. unfold average_bulk_binding_energy in H.
  cbn [r_material mat_geometry mesh0d_geometry g_get_concentrations bind mat_Eb m0_concentrations r_mesh] in H.
  rewrite weighted_sum_R in H. cbn in H. apply ok_inj in H. lra.
Qed.
Lemma r_barrier_outside : barrier_outside (r_material 1 1).
Proof. intros v H. apply r_in_barrier. unfold in_material in H. cbn [r_material mat_geometry mesh0d_geometry g_inside] in H. apply nlt_true in H. rewrite nZ_R in H. exact H. Qed.
Example C103_applies : exists out n',
  physical (r_material 1 1) /\ stopping_target (r_material 1 1) /\ uniform_barrier (r_material 1 1) p_Es /\
  barrier_outside (r_material 1 1) /\ costs_at_least (r_material 1 1) 0 /\
  (forall i r, atom_of_species (r_material 1 1) i r -> 1 <= p_Es r) /\
  never_unpaid None (r_material 1 1) (r_mode LOW_ENERGY_LOCAL false) zero_rng (r_at 1 3) 0%nat /\
  energy_ok (r_at 1 3) /\ 0 < p_Z (r_at 1 3) /\ p_incident (r_at 1 3) = true /\
  single_ion_bca None (r_material 1 1) (r_mode LOW_ENERGY_LOCAL false) 3 (r_at 1 3) zero_rng 0%nat = Ok ([out], n').
Proof.
  destruct (r_step LOW_ENERGY_LOCAL false 1 3) as (p2 & n2 & p' & ps' & n' & H1 & H2 & H3 & H4 & H5 & Hst & Hps).
  specialize (Hps eq_refl). subst ps'.
  assert (Hph : physical (r_material 1 1)) by (apply r_physical; lra).
  assert (Ha : active (r_at 1 3)) by (split; reflexivity).
  assert (Hi : energy_ok (r_at 1 3)) by (apply r_at_ok; lra).
  assert (Hun : ~ unpaid (r_material 1 1) (r_at 1 3) p').
  { intros (_ & [Hl|(_ & Hb & _)]).
    - pose proof (bca_step_ok _ _ _ _ _ _ _ _ _ _ Ha H4) as (X & _). destruct (sr_outcome _ _ _ _ X) as [(_ & E)|[(_ & E & _)|(_ & _ & E)]]; try congruence.
      rewrite H5 in E. unfold in_boundary in E. cbn [r_material mat_geometry mesh0d_geometry g_inside_simulation_boundary m0_energy_barrier_thickness r_mesh vx vy vz] in E.
      apply nlt_false in E. pose proof r_thickness. toR_in E. lra.
    - rewrite H5, r_in_barrier in Hb by (cbn; lra). discriminate Hb. }
  assert (HE : p_E p' <= 1).
  { pose proof H4 as He. eapply (C103_one_iteration_partial _ _ _ p_Es 0) in He; try eassumption;
      [|apply r_stopping_target|apply r_uniform|apply r_barrier_outside|apply r_costs|reflexivity|cbn; lra].
    cbn [map] in He. change (Rsum []) with 0 in He. unfold free_energy in He.
    assert (Ho : owes (r_material 1 1) (r_at 1 3) = true) by (unfold owes; rewrite r_in_barrier by (cbn; lra); reflexivity).
    rewrite Ho in He. assert (HEs : p_Es p' = 1).
    { pose proof (bca_step_ok _ _ _ _ _ _ _ _ _ _ Ha H4) as (X & _). destruct X as [X _ _ _ _ _ _]. transitivity (p_Es (r_at 1 3)); [symmetry; apply X|reflexivity]. }
    rewrite HEs in He. change (p_E (r_at 1 3)) with 1 in He. change (p_Es (r_at 1 3)) with 1 in He. destruct (owes (r_material 1 1) p'); lra. }
  assert (Hs : p_stopped p' = true) by (apply Hst; lra).
  exists p', n'. split; [exact Hph|]. split; [apply r_stopping_target|]. split; [apply r_uniform|]. split; [apply r_barrier_outside|]. split; [apply r_costs|].
  split. { intros [|i] r (_ & _ & _ & E & _); [cbn in E; injection E as <-; lra|destruct i; discriminate E]. }
  split.
  { assert (Hre : forall p ps n, reached None (r_material 1 1) (r_mode LOW_ENERGY_LOCAL false) zero_rng (r_at 1 3) 0%nat p ps n ->
        (p = r_at 1 3 /\ ps = [] /\ n = 0%nat) \/ (p = p' /\ ps = [])).
    { induction 1 as [|p ps n q qs m _ IH Hap Hstep|p q ps n _ IH Hna]; [auto| |].
      - destruct IH as [(-> & -> & ->)|(-> & _)]; [|destruct Hap as (E & _); congruence].
        right. rewrite H4 in Hstep. assert (I : forall x y : (Particle R * list (Particle R)) * nat, Ok x = Ok y -> x = y) by congruence.
        apply I in Hstep. pose proof (f_equal fst Hstep) as E. cbn [fst] in E.
        pose proof (f_equal fst E) as E1. pose proof (f_equal snd E) as E2. cbn [fst snd] in E1, E2. auto.
      - destruct IH as [(_ & E & _)|(_ & E)]; discriminate E. }
    intros p ps n q qs m Hr Hap Hstep. apply Hre in Hr. destruct Hr as [(-> & -> & ->)|(-> & _)]; [|destruct Hap as (E & _); congruence].
    rewrite H4 in Hstep. assert (I : forall x y : (Particle R * list (Particle R)) * nat, Ok x = Ok y -> x = y) by congruence.
    apply I in Hstep. pose proof (f_equal fst (f_equal fst Hstep)) as E. cbn [fst] in E. subst q. exact Hun. }
  split; [exact Hi|]. split; [cbn; lra|]. split; [reflexivity|].
  unfold single_ion_bca. cbn [stack_loop]. unfold mbind at 1. cbn [bca_loop].
  change (negb (p_stopped (r_at 1 3)) && negb (p_left (r_at 1 3))) with true. cbv iota. unfold mbind at 1. rewrite H4.
  cbn [bca_loop]. rewrite Hs. reflexivity.
Qed.

(** What fails.  (1) A particle whose flight ends beyond the simulation boundary
    pays nothing: 20 eV hydrogen, given 3 eV by the barrier on its way in, leaves
    with more than 21 eV.  (2) A reflected particle still flies outwards once
    more: 2 eV hydrogen behind a barrier of 3 eV leaves. *)
Theorem C103_refuted_particles_leave_without_paying :
  (exists mesh ion out n,
    @mesh0d_new _ series_num copper_input = Ok mesh /\
    @from_input _ series_num visitor (plain_options LOW_ENERGY_LOCAL GASEOUS 0) = Ok ion /\
    @single_ion_bca _ series_num None (copper mesh) (plain_options LOW_ENERGY_LOCAL GASEOUS 0) 60 ion (draws visitor_draws) 0%nat = Ok ([out], n) /\
    pi_E visitor = (@nmul _ series_num (@nZ _ series_num 20) (@cEV _ series_num)) /\
    p_left out = true /\ SFltb (@nmul _ series_num (@nZ _ series_num 21) (@cEV _ series_num)) (p_E out) = true) /\
  (exists mesh ion out n,
    @mesh0d_new _ series_num copper_input = Ok mesh /\
    @from_input _ series_num prisoner (plain_options LOW_ENERGY_LOCAL GASEOUS 0) = Ok ion /\
    @single_ion_bca _ series_num None (copper mesh) (plain_options LOW_ENERGY_LOCAL GASEOUS 0) 60 ion (draws prisoner_draws) 0%nat = Ok ([out], n) /\
    pi_E prisoner = @nmul _ series_num (@nZ _ series_num 2) (@cEV _ series_num) /\
    pi_Es prisoner = @nmul _ series_num (@nZ _ series_num 3) (@cEV _ series_num) /\
    @in_barrier _ (copper mesh) (p_pos ion) = Ok true /\ p_left out = true /\ p_backreflected out = true).
Proof.
  split.
  - destruct (run_of_inv _ _ _ _ _ _ _ visitor_run) as (mesh & ion & out & n & H1 & H2 & H3 & H).
    unfold got_away in H. destruct out as [|out [|]]; try discriminate H.
    apply andb_true_iff in H. destruct H as (Hl & H). apply andb_true_iff in H. destruct H as (H & _).
    exists mesh, ion, out, n. split; [exact H1|]. split; [exact H2|]. split; [exact H3|]. split; [reflexivity|]. split; [exact Hl|exact H].
  - destruct (run_of_inv _ _ _ _ _ _ _ prisoner_run) as (mesh & ion & out & n & H1 & H2 & H3 & H).
    unfold got_away_reflected, got_away in H. destruct out as [|out [|]]; try discriminate H.
    apply andb_true_iff in H. destruct H as (H & Hb). apply andb_true_iff in H. destruct H as (H & Hbr).
    apply andb_true_iff in H. destruct H as (Hl & _).
    exists mesh, ion, out, n. split; [exact H1|]. split; [exact H2|]. split; [exact H3|]. split; [reflexivity|]. split; [reflexivity|].
    split; [|split; [exact Hl|exact Hbr]].
    change (in_barrier (copper mesh) (p_pos ion)) with (@g_inside_energy_barrier _ (@mesh0d_geometry _ series_num mesh) (vx (p_pos ion)) (vy (p_pos ion)) (vz (p_pos ion))).
    destruct (g_inside_energy_barrier _ _ _ _) as [[]| |]; try discriminate Hb. reflexivity.
Qed.
Print Assumptions C103_refuted_particles_leave_without_paying.
