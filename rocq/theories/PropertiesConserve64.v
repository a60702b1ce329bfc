(** * PropertiesConserve64.v - C132: the energy balance of collisions and flights in double precision *)
From Coq Require Import ZArith List Bool Reals Lra Lia Floats.SpecFloat.
From Flocq Require Import Core BinarySingleNaN.
From Verif Require Import Num NumSF NumB ProofsFloat SpecFloat64 SpecConserve64 ModelTypes ModelConsts ModelParticle ModelInteractions
  ModelGeometry ModelMaterial ModelBca Spec ProofsBase ProofsBca ProofsFlight ProofsStep ProofsUnit64 ProofsRounding ProofsConserve64 ToyRounding PropertiesRounding.
Import ListNotations.
Open Scope R_scope.

Lemma units : u64 = / 2 ^ 53 /\ 4 * eta = bpow radix2 (-1073).
Proof.
  split; [rewrite u64_val; cbn; lra|]. unfold eta. change 4 with (bpow radix2 2). rewrite <- bpow_plus. reflexivity.
Qed.
Lemma tiny k : (-1075 <= k)%Z -> eta <= bpow radix2 k.
Proof. intros. apply bpow_le. assumption. Qed.
Lemma transfer_pos (a b : f64) e s : plain_mass a -> plain_mass b -> 0 <= e -> 0 <= exact_transfer (B2R a) (B2R b) e s.
Proof.
  intros (_ & Ha & _) (_ & Hb & _) He. pose proof (bpow_gt_0 radix2 (-400)). unfold exact_transfer.
  apply Rmult_le_pos; [|apply sq0]. apply Rmult_le_pos; [|exact He]. apply Rlt_le, Rdiv_lt_0_compat; nra.
Qed.
(** The reported energy transfer of a collision is between nothing and everything, and it is the formula for
    the reported angle up to one part in 2^49. *)
Theorem C132_energy_transfer :
  forall (lm : LibmB), sane_libm lm -> let NB := NumB lm in
  forall build (p1 p2 : Particle f64) bcg options r, plain_mass (p_m p1) -> plain_mass (p_m p2) -> same_or_apart (p_m p1) (p_m p2) -> plain_number (p_E p1) ->
    calculate_binary_collision build p1 p2 bcg options = Ok (Some r) ->
    let sine := lb_sin lm (ndiv (bcr_theta r) (nZ 2)) in is_nan sine = false ->
    let exact := exact_transfer (B2R (p_m p1)) (B2R (p_m p2)) (B2R (p_E p1)) (B2R sine) in
    is_finite (bcr_recoil_energy r) = true /\ 0 <= B2R (bcr_recoil_energy r) <= B2R (p_E p1) /\
    Rabs (B2R (bcr_recoil_energy r) - exact) <= / 2 ^ 49 * exact + bpow radix2 (-1073) * (B2R (p_E p1) + 1).
Proof.
  intros lm SL NB build p1 p2 bcg options r H1 H2 HM (FE & HE) H sine Hs exact. destruct (bcc_inv lm SL _ _ _ _ _ _ H) as (_ & ER).
  assert (SS : is_nan sine = true \/ (is_finite sine = true /\ Rabs (B2R sine) <= 1)) by apply (sane_sin _ SL). destruct SS as [E|(Fs & Bs)]; [congruence|].
  pose proof (transfer_near lm SL (p_m p1) (p_m p2) (p_E p1) sine H1 H2 HM FE HE Fs Bs) as T. cbv zeta in T. 
  assert (ER' : bcr_recoil_energy r = Bmult mode_NE (Bmult mode_NE (factor lm (p_m p1) (p_m p2)) (p_E p1)) (Bmult mode_NE sine sine)) by exact ER.
  rewrite <- ER' in T. destruct T as (FT & BT & NT). split; [exact FT|]. split; [exact BT|]. fold exact in NT. destruct units as (U & V). rewrite V in NT.
  eapply Rle_trans; [exact NT|]. right. rewrite U. field.
Qed.
Print Assumptions C132_energy_transfer.

(** One collision of a flight: either nothing happens, or the projectile loses the transferred energy, the
    reported loss grows by it, and what a recoil carries, the bulk binding energy and what the projectile keeps
    add up to what it had - all up to one rounding each. *)
Theorem C132_collision :
  forall (lm : LibmB), sane_libm lm -> let NB := NumB lm in
  forall build (mat : Material f64) options k bcg (cs : @CollisionState f64) rng n (cs' : @CollisionState f64) n',
    let E := p_E (cs_particle_1 cs) in let E' := p_E (cs_particle_1 cs') in
    known (mat_m mat) (p_m (cs_particle_1 cs)) -> plain_number E -> is_nan E' = false ->
    collision_step build mat options k bcg cs rng n = Ok (cs', n') ->
    cs' = cs \/ exists T : f64, plain_number T /\ B2R T <= B2R E /\ plain_number E' /\ B2R E' <= B2R E /\
      Rabs (B2R E' + B2R T - B2R E) <= / 2 ^ 53 * B2R E + bpow radix2 (-1074) /\
      cs_total_energy_lost_to_recoils cs' = nadd (cs_total_energy_lost_to_recoils cs) T /\
      (cs_particles cs' = cs_particles cs \/ exists recoil bulk, cs_particles cs' = recoil :: cs_particles cs /\
         average_bulk_binding_energy mat (vx (p_pos recoil)) (vy (p_pos recoil)) (vz (p_pos recoil)) = Ok bulk /\
         (plain_number bulk -> is_finite (p_E recoil) = true /\
            Rabs (B2R E' + B2R (p_E recoil) + B2R bulk - B2R E) <= / 2 ^ 52 * (B2R E + B2R bulk) + bpow radix2 (-1073))).
Proof.
  intros lm SL NB build mat options k bcg cs rng n cs' n' E E' K (FE & HE) Nn H.
  destruct (step_near lm SL build mat options k bcg cs rng n cs' n' K FE HE Nn H) as [->|(M & theta & T & _ & FT & BT & _ & Fe' & Be' & Ne & EL & HR)]; [left; reflexivity|right].
  unfold E, E' in *. clear E E'. cbv zeta in *. set (E := p_E (cs_particle_1 cs)) in *. set (E' := p_E (cs_particle_1 cs')) in *. destruct units as (U & V). rewrite U in Ne. pose proof (tiny (-1074) ltac:(lia)) as T1. pose proof (tiny (-1073) ltac:(lia)) as T2.
  assert (T3 : 2 * bpow radix2 (-1074) = bpow radix2 (-1073)) by (change 2 with (bpow radix2 1) at 1; rewrite <- bpow_plus; reflexivity).
  assert (T4 : 4 * eta = bpow radix2 (-1073)) by exact V.
  exists T. split; [split; [exact FT|lra]|]. split; [lra|]. split; [split; [exact Fe'|lra]|]. split; [lra|].
  split. { replace (B2R E' + B2R T - B2R E) with (B2R E' - (B2R E - B2R T)) by ring. lra. }
  split; [exact EL|]. destruct HR as [HR|(recoil & bulk & HR & Hb & _ & ER)]; [left; exact HR|right].
  exists recoil, bulk. split; [exact HR|]. split; [exact Hb|]. intros (FB & HB). rewrite ER.
  assert (SUB : is_finite (Bminus mode_NE T bulk) = true /\ B2R (Bminus mode_NE T bulk) = rd (B2R T - B2R bulk)).
  { apply sub_ok; [exact FT|exact FB|]. destruct (Rle_or_lt (B2R T) (B2R bulk)) as [L|L].
    - apply (no_overflow _ bulk). rewrite Rabs_left1 by lra. lra.
    - apply (no_overflow _ T). rewrite Rabs_pos_eq by lra. lra. }
  destruct SUB as (FS & VS). split; [exact FS|]. rewrite VS. pose proof (rd_near (B2R T - B2R bulk)) as N.
  assert (A : Rabs (B2R T - B2R bulk) <= B2R E + B2R bulk) by (apply Rabs_le; lra).
  set (x := rd (B2R T - B2R bulk)) in *. assert (N' : Rabs (x - (B2R T - B2R bulk)) <= u64 * (B2R E + B2R bulk) + eta) by (eapply Rle_trans; [exact N|]; apply Rplus_le_compat_r, Rmult_le_compat_l; [rewrite u64_val; lra|exact A]).
  rewrite U in N'. apply Rabs_le_inv in Ne, N'. apply Rabs_le. lra.
Qed.
Print Assumptions C132_collision.

(** One flight, with any number of simultaneous collisions up to 2^20: what the ion reports as lost to recoils
    ([En]) and to electrons ([Ee]) and what it keeps ([E1], before the surface acts on it) add up to the energy
    it had, up to the 2^-51st part of it for each collision and one more; an electronic loss beyond what is left
    leaves it at zero.  Without a crossing of the surface it keeps [E1] itself. *)
Theorem C132_flight :
  forall (lm : LibmB), sane_libm lm -> let NB := NumB lm in
  forall build (mat : Material f64) options (p : Particle f64) particles rng n p' particles' n',
    active p -> known (mat_m mat) (p_m p) -> plain_number (p_E p) -> B2R (p_E p) <= bpow radix2 1000 -> (Z.of_nat (S (o_weak_collision_order options)) <= 2 ^ 20)%Z ->
    bca_step build mat options p particles rng n = Ok ((p', particles'), n') ->
    let tolerance := INR (o_weak_collision_order options + 2) * (/ 2 ^ 51 * B2R (p_E p) + bpow radix2 (-1073)) in
    exists En Ee E1 : f64,
      (p_energies p' = if p_incident p && o_track_energy_losses options
                       then p_energies p ++ [mkEL En Ee (vx (p_pos p')) (vy (p_pos p')) (vz (p_pos p'))]
                       else p_energies p) /\
      plain_number En /\
      (in_material mat (p_pos p') = true -> plain_number Ee -> B2R Ee <= bpow radix2 1000 ->
         is_finite E1 = true /\ Rabs (B2R E1 - Rmax 0 (B2R (p_E p) - B2R En - B2R Ee)) <= tolerance) /\
      (in_material mat (p_pos p') = false -> B2R Ee = 0 /\ is_finite E1 = true /\ Rabs (B2R E1 + B2R En - B2R (p_E p)) <= tolerance) /\
      (in_barrier mat (p_pos p') = in_barrier mat (p_pos p) \/ ~ active p' -> p_E p' = E1).
Proof.
  intros lm SL NB build mat options p particles rng n p' particles' n' Ha K (FE & HE) HB HO H tolerance.
  apply bca_step_states in H; [|exact Ha].
  destruct H as (p0 & bcgs & n1 & cs & bcg0 & dist & q & ee & Hd & Hloop & _ & _ & (qa & Hqa & HEa & Hsub) & _ & Hpo & _ & _ & _ & _ & Haq & Hid & Hb & _).
  assert (Hp0 : p_E p0 = p_E p /\ p_m p0 = p_m p) by (rewrite (determine_frame _ _ _ _ _ _ _ _ Hd); destruct (p_first_step p); split; reflexivity).
  destruct Hp0 as (Hp0 & Hm0).
  set (En := cs_total_energy_lost_to_recoils cs) in *.
  assert (Hpp : p_pos p' = p_pos q /\ p_energies p' = p_energies (update_energy_loss_tracker options En ee q)).
  { destruct (loss_tracker_frame options En ee q) as (l & El). rewrite El in Hb |- *.
    pose proof (boundary_ok _ _ _ (Haq : active (set_p_energies l q)) Hb) as (_ & B1 & _ & _ & _ & B2 & _). split; [exact B1|exact B2]. }
  destruct Hpp as (Hpp & Hen).
  pose proof (subtract_frame _ _ _ _ _ _ _ _ _ Hsub) as (Eq & Hq).
  assert (Hqe : p_energies q = p_energies p).
  { rewrite Hq. cbn. rewrite Hqa. unfold advance.
    pose proof (collision_loop_ok _ _ _ _ _ _ _ _ _ _ Hloop) as (Hf & _). cbn [cs_particle_1] in Hf.
    assert (p_energies p0 = p_energies p) by (rewrite (determine_frame _ _ _ _ _ _ _ _ Hd); destruct (p_first_step p); reflexivity).
    destruct Hf as (_&_&_&_&_&_&_&_&_&Hes&_).
    unfold update_trajectory_tracker. destruct (_ <! _); [destruct (p_track_trajectories _)|]; cbn; congruence. }
  assert (Hqi : p_incident q = p_incident p) by (symmetry; apply Hid).
  (* the collisions *)
  assert (NA : is_nan (p_E (cs_particle_1 cs)) = false).
  { pose proof Hsub as HS. unfold subtract_electronic_stopping_energy in HS. apply bind_ok in HS. destruct HS as (u & HS & _). apply rassert_ok in HS.
    rewrite <- HEa. apply negb_true_iff. exact HS. }
  set (chosen := firstn (S (o_weak_collision_order options)) bcgs) in *.
  set (cs0 := mkCS p0 particles (nZ 0) (nZ 0) (nZ 0) (nZ 0) 0%nat : @CollisionState f64) in *.
  assert (LC : (length chosen <= S (o_weak_collision_order options))%nat) by (unfold chosen; rewrite firstn_length; lia).
  assert (Z0 : (nZ 0 : f64) = b0) by apply (zero lm).
  assert (L0 : loss cs0 = b0) by (unfold loss, cs0; cbn [cs_total_energy_lost_to_recoils]; exact Z0).
  assert (E0 : p_E (cs_particle_1 cs0) = p_E p) by exact Hp0. assert (M0 : p_m (cs_particle_1 cs0) = p_m p) by exact Hm0.
  destruct (loop_held lm SL build mat options (B2R (p_E p)) chosen 0 cs0 rng n1 cs n') as (F1 & B1 & FL & PL & D); try assumption; try (rewrite ?E0, ?M0, ?L0; assumption || reflexivity || (cbn; lra)).
  { split; assumption. } { cbn [plus]. lia. }
  { unfold held. fold (loss cs0). rewrite E0, L0. change (B2R b0) with 0. rewrite Rplus_0_r, Rminus_diag_eq, Rabs_R0 by reflexivity. cbn. lra. }
  rewrite E0 in B1. cbn [plus] in D. unfold held in D. change (cs_total_energy_lost_to_recoils cs) with En in D. change (loss cs) with En in FL, PL.
  destruct units as (U & V). pose proof eta_pos as He0. pose proof u64_small as Hu. rewrite V in D.
  set (unit_error := 4 * u64 * B2R (p_E p) + bpow radix2 (-1073)) in *.
  assert (UE : unit_error = / 2 ^ 51 * B2R (p_E p) + bpow radix2 (-1073)) by (unfold unit_error; rewrite U; field).
  assert (U0 : 0 <= unit_error) by (unfold unit_error; pose proof (bpow_ge_0 radix2 (-1073)); nra).
  assert (D' : Rabs (B2R (p_E (cs_particle_1 cs)) + B2R En - B2R (p_E p)) <= INR (S (o_weak_collision_order options)) * unit_error).
  { eapply Rle_trans; [exact D|]. apply Rmult_le_compat_r; [exact U0|]. apply le_INR. exact LC. }
  assert (TO : tolerance = INR (S (o_weak_collision_order options)) * unit_error + unit_error).
  { unfold tolerance. rewrite <- UE. replace (o_weak_collision_order options + 2)%nat with (S (S (o_weak_collision_order options))) by lia. rewrite (S_INR (S _)). ring. }
  set (err := INR (S (o_weak_collision_order options)) * unit_error) in *.
  exists En, ee, (p_E q). split; [|split; [split; assumption|split; [|split]]].
  - rewrite Hen. unfold update_energy_loss_tracker. rewrite Hqi.
    destruct (p_incident p && o_track_energy_losses options); cbn; rewrite ?Hqe, ?Hpp; reflexivity.
  - rewrite Hpp. intros Hin (Fee & Pee) Bee. assert (Hin' : in_material mat (p_pos qa) = true) by (rewrite Hq in Hin; exact Hin).
    rewrite <- HEa in *. assert (B01 : bpow radix2 1000 <= bpow radix2 1001) by (apply bpow_le; lia).
    destruct (known_step lm mat options qa _ _ _ _ q ee F1 (proj1 B1) Hin' Hsub Fee Pee Bee ltac:(lra)) as (FQ & NQ). split; [exact FQ|].
    assert (N1 : u64 * B2R (p_E qa) + eta <= unit_error).
    { unfold unit_error. rewrite <- V. assert (u64 * B2R (p_E qa) <= u64 * B2R (p_E p)) by (apply Rmult_le_compat_l; lra). assert (0 <= u64 * B2R (p_E p)) by (apply Rmult_le_pos; lra). lra. }
    rewrite TO. eapply Rle_trans; [|apply Rplus_le_compat_l; exact N1]. rewrite Rplus_comm. refine (chain_err _ _ _ _ _ NQ _).
    apply Rabs_le_inv in D'. apply Rabs_le. unfold Rmax. destruct (Rle_dec 0 _), (Rle_dec 0 _); lra.
  - rewrite Hpp. intros Hin. assert (Hin' : g_inside (mat_geometry mat) (vx (p_pos qa)) (vy (p_pos qa)) (vz (p_pos qa)) = false) by (rewrite Hq in Hin; exact Hin).
    unfold subtract_electronic_stopping_energy, mat_inside in Hsub. apply bind_ok in Hsub. destruct Hsub as (u & _ & Hsub). rewrite Hin' in Hsub.
    assert (I : forall (x y : Particle f64) (a b : f64), Ok (x, a) = Ok (y, b) -> x = y /\ a = b) by (intros x y a b KK; injection KK; auto). apply I in Hsub. destruct Hsub as (<- & <-).
    rewrite HEa. split; [rewrite Z0; reflexivity|]. split; [exact F1|]. rewrite TO. lra.
  - intros Hcase. destruct (loss_tracker_frame options En ee q) as (l & El). rewrite El in Hb.
    destruct (boundary_cases _ _ _ (Haq : active (set_p_energies l q)) Hb) as [(Hact & Hs & _)|(_ & _ & HE' & _)]; [|exact HE'].
    destruct Hcase as [Hcase|Hcase]; [|contradiction].
    refine (no_crossing_keeps_energy lm mat (set_p_energies l q) p' Hs _). cbn. rewrite Hpo, <- Hpp. exact Hcase.
Qed.
Print Assumptions C132_flight.

(** ** The hypotheses can be met: helium of 60 eV on copper, with a recoil *)
#[local] Existing Instance toy64.
Definition small64 (x : f64) : bool := Bleb b0 x && Bleb x (nZ 60 *! cEV).
Definition flight64_test (ion : Particle f64) (p' : Particle f64) (recoils : list (Particle f64)) (cs' : @CollisionState f64) (c : BinaryCollisionResult f64) : bool :=
  forallb (fun b : bool => b) [plain64 (p_E ion); small64 (p_E ion); negb (p_stopped ion); negb (p_left ion); Nat.eqb (length (p_energies p')) 1; Nat.eqb (length recoils) 1; Nat.eqb (length (cs_particles cs')) 1; plain64 (p_E (cs_particle_1 cs')); plain64 (bcr_recoil_energy c); Bltb b0 (bcr_recoil_energy c); negb (is_nan (lb_sin clamped (ndiv (bcr_theta c) (nZ 2))))].
Definition flight64 : Res bool :=
  let! mesh := mesh0d_new copper64_input in
  let! ion := from_input helium64 options64 in
  let mat := copper64 mesh in
  let! step := bca_step None mat options64 ion [] rng64 0%nat in
  let! first := determine_mfp_phi_impact_parameter mat options64 ion rng64 0%nat in
  let! bcg := idx (snd (fst first)) 0 in
  let cs0 := mkCS ion [] (nZ 0) (nZ 0) (nZ 0) (nZ 0) 0%nat in
  let! collision := collision_step None mat options64 0 bcg cs0 rng64 (snd first) in
  let! partner := choose_collision_partner mat options64 ion bcg rng64 (snd first) in
  let! c := calculate_binary_collision None ion (snd (fst partner)) bcg options64 in
  match c with Some c => Ok (flight64_test ion (fst (fst step)) (snd (fst step)) (fst collision) c) | None => Ok false end.
Lemma flight64_passes : ltac:(let t := eval unfold flight64 in (flight64 = Ok true) in exact t).
Proof. vm_compute. reflexivity. Qed.
Lemma copper_known mesh : known (mat_m (copper64 mesh)) he_mass.
Proof. destruct masses64 as (M1 & M2 & M3 & _). split; [exact M2|]. split; (constructor; [assumption|constructor]). Qed.
Lemma sixty_ev : exists m e, B2SF (nZ 60 *! cEV : f64) = S754_finite false m e /\ (e <= 0)%Z /\ (Zpos m <= 2 ^ 53)%Z.
Proof. eexists _, _. split; [vm_compute; reflexivity|]. split; discriminate. Qed.
Lemma small64_ok x : plain64 x = true -> small64 x = true -> B2R x <= bpow radix2 1000.
Proof.
  intros H1 H2. apply plain64_ok in H1. destruct H1 as (F & _). unfold small64 in H2. apply andb_prop in H2. destruct H2 as (_ & H2).
  destruct sixty_ev as (m & e & E & He & Hm).
  assert (FV : is_finite (nZ 60 *! cEV : f64) = true /\ B2R (nZ 60 *! cEV : f64) = IZR (Zpos m) * bpow radix2 e).
  { split; [rewrite <- is_finite_SF_B2SF, E; reflexivity|]. rewrite <- SF2R_B2SF, E. reflexivity. }
  destruct FV as (FV & VV). apply (le_fin _ _ F FV) in H2. rewrite VV in H2. eapply Rle_trans; [exact H2|].
  replace 1000%Z with (53 + 947)%Z by lia. rewrite bpow_plus. apply Rmult_le_compat; [apply IZR_le; lia|apply bpow_ge_0| |apply bpow_le; lia].
  replace (bpow radix2 53) with (IZR (2 ^ 53)) by (cbn; reflexivity). apply IZR_le. exact Hm.
Qed.
Lemma all_true l : forallb (fun b : bool => b) l = true -> Forall (fun b => b = true) l.
Proof. intros H. apply Forall_forall. intros b Hb. rewrite forallb_forall in H. exact (H b Hb). Qed.
Lemma some_true {A} (o : option A) (t : A -> bool) : match o with Some c => Ok (t c) | None => Ok false end = Ok true -> exists c, o = Some c /\ t c = true.
Proof. destruct o as [c|]; [|discriminate]. intros H. injection H as H. exists c. split; [reflexivity|exact H]. Qed.
Lemma flight64_test_ok ion p' recoils cs' c : flight64_test ion p' recoils cs' c = true ->
  plain64 (p_E ion) = true /\ small64 (p_E ion) = true /\ p_stopped ion = false /\ p_left ion = false /\ length (p_energies p') = 1%nat /\ length recoils = 1%nat /\
  length (cs_particles cs') = 1%nat /\ plain64 (p_E (cs_particle_1 cs')) = true /\ plain64 (bcr_recoil_energy c) = true /\ Bltb b0 (bcr_recoil_energy c) = true /\
  is_nan (lb_sin clamped (ndiv (bcr_theta c) (nZ 2))) = false.
Proof.
  unfold flight64_test. generalize (lb_sin clamped (ndiv (bcr_theta c) (nZ 2))). intros y H. apply all_true in H.
  repeat match goal with H : Forall _ (_ :: _) |- _ => inversion_clear H end.
  repeat split; try assumption; try (apply negb_true_iff; assumption); apply PeanoNat.Nat.eqb_eq; assumption.
Qed.
Example C132_applies :
  sane_libm clamped /\ exists mesh ion p' recoil n' bcg n1 (cs' : @CollisionState f64) n2 p2 c, let cs0 := mkCS ion [] (nZ 0) (nZ 0) (nZ 0) (nZ 0) 0%nat in
    mesh0d_new copper64_input = Ok mesh /\ from_input helium64 options64 = Ok ion /\
    active ion /\ known (mat_m (copper64 mesh)) (p_m ion) /\ plain_number (p_E ion) /\ B2R (p_E ion) <= bpow radix2 1000 /\
    bca_step None (copper64 mesh) options64 ion [] rng64 0%nat = Ok ((p', [recoil]), n') /\ length (p_energies p') = 1%nat /\
    collision_step None (copper64 mesh) options64 0 bcg cs0 rng64 n1 = Ok (cs', n2) /\ length (cs_particles cs') = 1%nat /\ is_nan (p_E (cs_particle_1 cs')) = false /\
    calculate_binary_collision None ion p2 bcg options64 = Ok (Some c) /\ 0 < B2R (bcr_recoil_energy c) /\ is_nan (lb_sin clamped (ndiv (bcr_theta c) (nZ 2))) = false.
Proof.
  split; [exact clamped_sane|]. pose proof flight64_passes as H.
  apply bind_ok in H. destruct H as (mesh & Hm & H). apply bind_ok in H. destruct H as (ion & Hi & H).
  apply bind_ok in H. destruct H as (((p', recoils), n') & Hs & H). apply bind_ok in H. destruct H as (((p0, bcgs), n1) & _ & H).
  apply bind_ok in H. destruct H as (bcg & _ & H). apply bind_ok in H. destruct H as ((cs', n2) & Hc & H).
  apply bind_ok in H. destruct H as (((i, p2), n3) & _ & H). apply bind_ok in H. destruct H as (c & Hb & H). apply some_true in H. destruct H as (c' & -> & H). cbn [fst snd] in *.
  apply flight64_test_ok in H. destruct H as (PE & SE & S1 & S2 & L1 & L2 & L3 & PC & PT & LT & NS).
  destruct recoils as [|recoil [|]]; try (exfalso; discriminate L2). exists mesh, ion, p', recoil, n', bcg, n1, cs', n2, p2, c'. cbv zeta.
  split; [exact Hm|]. split; [exact Hi|]. apply from_input_fields in Hi. destruct Hi as (Em & _ & _). change (pi_m helium64) with he_mass in Em.
  split; [split; assumption|]. split; [rewrite Em; apply copper_known|]. split; [apply plain64_ok; exact PE|]. split; [apply small64_ok; assumption|].
  split; [exact Hs|]. split; [exact L1|]. split; [exact Hc|]. split; [exact L3|].
  split. { apply plain64_ok in PC. destruct PC as (F & _). destruct (p_E (cs_particle_1 cs')); [reflexivity|reflexivity|discriminate F|reflexivity]. }
  split; [exact Hb|]. split; [|exact NS].
  apply plain64_ok in PT. exact (proj1 (lt_fin b0 _ eq_refl (proj1 PT)) LT).
Qed.
