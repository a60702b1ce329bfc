(** * ProofsTurn.v - turning and mirroring the ion of a flat target *)
From Coq Require Import ZArith List Bool Reals Lra Lia.
From Verif Require Import Num NumR ModelTypes ModelConsts ModelParticle ModelGeometry ModelMaterial ModelInteractions ModelBca.
From Verif Require Import ProofsBase SpecTwo SpecShift ProofsTwo ProofsShift SpecTurn.
Import ListNotations.
Open Scope R_scope.

(** ** Runs on two random streams *)
Definition flipped (f : nat -> bool) (rng : nat -> R) (k : nat) : R := if f k then 1 - rng k else rng k.
Definition mir (e : R) {A B} (Q : A -> B -> Prop) (a : M R A) (b : M R B) : Prop :=
  forall rng n x n', a rng n = Ok (x, n') -> (n <= n')%nat /\ exists f y, (e = 1 -> forall k, f k = false) /\ Q x y /\
    forall rng', (forall k, (n <= k)%nat -> (k < n')%nat -> rng' k = flipped f rng k) -> b rng' n = Ok (y, n').
Lemma mir_bind e {A A' B B'} (Q : A -> A' -> Prop) (S : B -> B' -> Prop) (a : M R A) (a' : M R A') f f' :
  mir e Q a a' -> (forall x y, Q x y -> mir e S (f x) (f' y)) -> mir e S (mbind a f) (mbind a' f').
Proof.
  intros H K rng n z n' HR. unfold mbind in HR. destruct (a rng n) as [[x n1]| |] eqn:Ha; try discriminate HR.
  destruct (H rng n x n1 Ha) as (L1 & g1 & y & E1 & HQ & H1).
  destruct (K x y HQ rng n1 z n' HR) as (L2 & g2 & w & E2 & HS & H2). split; [lia|].
  exists (fun k => if Nat.ltb k n1 then g1 k else g2 k), w. split; [|split; [exact HS|]].
  - intros He k. destruct (Nat.ltb k n1); auto.
  - intros rng' Hr. unfold mbind. rewrite (H1 rng').
    + apply H2. intros k Hk1 Hk2. rewrite (Hr k) by lia. unfold flipped. replace (Nat.ltb k n1) with false; [reflexivity|].
      symmetry. apply Nat.ltb_ge. lia.
    + intros k Hk1 Hk2. rewrite (Hr k) by lia. unfold flipped. replace (Nat.ltb k n1) with true; [reflexivity|].
      symmetry. apply Nat.ltb_lt. lia.
Qed.
Lemma mir_ret e {A B} (Q : A -> B -> Prop) x y : Q x y -> mir e Q (mret x) (mret y).
Proof.
  intros H rng n x' n' HR. apply mret_ok in HR. destruct HR as (-> & ->). split; [lia|]. exists (fun _ => false), y.
  split; [reflexivity|]. split; [exact H|]. reflexivity.
Qed.
Lemma mir_lift e {A B} (Q : A -> B -> Prop) a b : agree Q a b -> mir e Q (mlift a) (mlift b).
Proof.
  intros H rng n x n' HR. unfold mlift in *. destruct a as [x0| |]; try discriminate HR. injection HR as <- <-. split; [lia|].
  destruct b as [y| |]; try contradiction. exists (fun _ => false), y. auto.
Qed.
Lemma mir_weaken e {A B} (Q Q' : A -> B -> Prop) a b : (forall x y, Q x y -> Q' x y) -> mir e Q a b -> mir e Q' a b.
Proof. intros HQ H rng n x n' HR. destruct (H rng n x n' HR) as (L & f & y & E & H1 & H2). split; [exact L|]. exists f, y. auto. Qed.
Lemma mir_lift_eq e {A} (a : Res A) : mir e eq (mlift a) (mlift a).
Proof. apply mir_lift, agree_eq. reflexivity. Qed.
Lemma mir_random e : mir e eq (@mrandom R) mrandom.
Proof.
  intros rng n x n' HR. injection HR as <- <-. split; [lia|]. exists (fun _ => false), (rng n). split; [reflexivity|]. split; [reflexivity|].
  intros rng' Hr. unfold mrandom. rewrite Hr by lia. reflexivity.
Qed.
Lemma mir_randoms e j : mir e eq (@mrandoms R j) (mrandoms j).
Proof.
  induction j as [|j IH]; cbn [mrandoms]; [apply mir_ret; reflexivity|].
  eapply mir_bind; [apply mir_random|]. intros r ? <-. eapply mir_bind; [apply IH|]. intros rs ? <-. apply mir_ret. reflexivity.
Qed.
(** azimuths: mirrored if need be *)
Definition az_rel (e : R) (r r' : R) : Prop := cos (2 * PI * r') = cos (2 * PI * r) /\ sin (2 * PI * r') = e * sin (2 * PI * r).
Lemma mir_azimuth e : e = 1 \/ e = -1 -> mir e (az_rel e) (@mrandom R) mrandom.
Proof.
  intros He rng n x n' HR. injection HR as <- <-. split; [lia|].
  destruct (Req_EM_T e 1) as [->|Hne].
  - exists (fun _ => false), (rng n). split; [reflexivity|]. split; [split; [reflexivity|ring]|].
    intros rng' Hr. unfold mrandom. rewrite Hr by lia. reflexivity.
  - destruct He as [He|He]; [contradiction|]. exists (fun _ => true), (1 - rng n). split; [intros; contradiction|]. split.
    + split; replace (2 * PI * (1 - rng n)) with (- (2 * PI * rng n) + 2 * INR 1 * PI) by (simpl; ring).
      * rewrite cos_period. apply cos_neg.
      * rewrite sin_period, sin_neg, He. ring.
    + intros rng' Hr. unfold mrandom. rewrite Hr by lia. reflexivity.
Qed.
Lemma mir_azimuths e j : e = 1 \/ e = -1 -> mir e (Forall2 (az_rel e)) (@mrandoms R j) (mrandoms j).
Proof.
  intros He. induction j as [|j IH]; cbn [mrandoms]; [apply mir_ret; constructor|].
  eapply mir_bind; [apply mir_azimuth, He|]. intros r r' Hr. eapply mir_bind; [apply IH|]. intros rs rs' Hrs. apply mir_ret. constructor; assumption.
Qed.

Section Turn.
  Context (L : LateralMap) (HL : orthogonal L) (mat : Material R) (o : Options R) (ok : R * R -> Prop) (SY : symmetric_under L ok (mat_geometry mat))
    (UZ : uniform_in_z (mat_geometry mat)) (O0 : ok (0, 0)) (OK : (forall d, ok d) \/ m_sin L = 0).
  Notation e := (m_sign L).
  Notation T := (carried L).
  Notation tv := (placed L).
  Notation td := (turned L).
  Lemma HLs : e * e = 1.
  Proof. destruct HL as (_ & [->| ->]); ring. Qed.
  Lemma HLc : m_cos L * m_cos L + m_sin L * m_sin L = 1.
  Proof. apply HL. Qed.
  Lemma vx_tv d v : vx (tv d v) = vx v. Proof. reflexivity. Qed.
  Lemma vx_td v : vx (td v) = vx v. Proof. reflexivity. Qed.

  Lemma T_tracker d p : update_trajectory_tracker (T d p) = T d (update_trajectory_tracker p).
  Proof.
    unfold update_trajectory_tracker. cbn [p_track_trajectories carried].
    destruct (p_track_trajectories p); [|reflexivity].
    apply particle_ext; try reflexivity. cbn [p_trajectory carried set_p_trajectory]. rewrite map_app. reflexivity.
  Qed.
  Lemma tracker_incident (p : Particle R) : p_incident (update_trajectory_tracker p) = p_incident p.
  Proof. unfold update_trajectory_tracker. destruct (p_track_trajectories p); reflexivity. Qed.
  Lemma T_losses d a b p : update_energy_loss_tracker o a b (T d p) = T d (update_energy_loss_tracker o a b p).
  Proof.
    unfold update_energy_loss_tracker. cbn [p_incident carried].
    destruct (p_incident p && _); [|reflexivity].
    apply particle_ext; try reflexivity. cbn [p_energies carried set_p_energies]. rewrite map_app. reflexivity.
  Qed.
  Lemma losses_incident a b (p : Particle R) : p_incident (update_energy_loss_tracker o a b p) = p_incident p.
  Proof. unfold update_energy_loss_tracker. destruct (p_incident p && _); reflexivity. Qed.

  Lemma td_magnitude v : v_magnitude (td v) = v_magnitude v.
  Proof.
    unfold v_magnitude. cbn [turned vx vy vz]. toR. f_equal. pose proof HLs as H1. pose proof HLc as H2.
    set (c := m_cos L) in *. set (s := m_sin L) in *. set (g := e) in *. clearbody c s g. clear - H1 H2.
    replace (g * (s * vy v + c * vz v) * (g * (s * vy v + c * vz v))) with ((g * g) * ((s * vy v + c * vz v) * (s * vy v + c * vz v))) by ring.
    rewrite H1. replace (vx v * vx v + (c * vy v - s * vz v) * (c * vy v - s * vz v) + 1 * ((s * vy v + c * vz v) * (s * vy v + c * vz v)))
      with (vx v * vx v + (c * c + s * s) * (vy v * vy v + vz v * vz v)) by ring. rewrite H2. ring.
  Qed.
  Lemma td_normalize v : v_normalize (td v) = td (v_normalize v).
  Proof.
    unfold v_normalize. rewrite td_magnitude. set (m := v_magnitude v). unfold turned. cbn [vx vy vz]. toR.
    f_equal; unfold Rdiv; ring.
  Qed.
  Definition phis (phi phi' : R) : Prop := cos phi' = cos phi /\ sin phi' = e * sin phi.
  Lemma td_rotate v psi phi phi' : phis phi phi' -> rotate_dir (td v) psi phi' = td (rotate_dir v psi phi).
  Proof.
    intros (Hc & Hs). unfold rotate_dir, v_assign. cbv zeta. rewrite vx_td. rewrite <- td_normalize. f_equal.
    unfold turned. cbn [vx vy vz]. toR. change (@ncos R NumR) with cos. change (@nsin R NumR) with sin. rewrite Hc, Hs.
    pose proof HLs as H1. set (g := e) in *. clearbody g. unfold Rdiv. 
    set (i := / sqrt (IZR 1 - vx v * vx v)). clearbody i. f_equal.
    - replace (g * sin phi * (g * (m_sin L * vy v + m_cos L * vz v))) with ((g * g) * (sin phi * (m_sin L * vy v + m_cos L * vz v))) by ring.
      rewrite H1. ring.
    - ring.
  Qed.
  Lemma T_rotate d psi phi phi' p : phis phi phi' -> rotate psi phi' (T d p) = T d (rotate psi phi p).
  Proof. intros H. unfold rotate. cbn [p_dir carried]. rewrite (td_rotate _ _ phi phi' H). reflexivity. Qed.
  Lemma td_dot v w : v_dot (td v) (td w) = v_dot v w.
  Proof.
    unfold v_dot, turned. cbn [vx vy vz]. toR. pose proof HLs as H1. pose proof HLc as H2.
    set (c := m_cos L) in *. set (s := m_sin L) in *. set (g := e) in *. clearbody c s g. clear - H1 H2.
    replace (vx v * vx w + (c * vy v - s * vz v) * (c * vy w - s * vz w) + g * (s * vy v + c * vz v) * (g * (s * vy w + c * vz w)))
      with (vx v * vx w + (c * vy v - s * vz v) * (c * vy w - s * vz w) + (g * g) * ((s * vy v + c * vz v) * (s * vy w + c * vz w))) by ring.
    rewrite H1. replace (vx v * vx w + (c * vy v - s * vz v) * (c * vy w - s * vz w) + 1 * ((s * vy v + c * vz v) * (s * vy w + c * vz w)))
      with (vx v * vx w + (c * c + s * s) * (vy v * vy w + vz v * vz w)) by ring. rewrite H2. ring.
  Qed.
  Lemma T_refraction d v Es p : surface_refraction (td v) Es (T d p) = T d (surface_refraction v Es p).
  Proof.
    apply particle_ext; try reflexivity. unfold surface_refraction. cbv zeta.
    cbn [p_dir carried set_p_E set_p_dir p_E]. rewrite td_dot. set (ct := v_dot _ _). clearbody ct.
    unfold turned. cbn [vx vy vz]. toR. f_equal; ring.
  Qed.
  Lemma T_advance d a b p : advance a b (T d p) = (T d (fst (advance a b p)), snd (advance a b p)).
  Proof.
    unfold advance. cbn [p_E p_Ec carried]. rewrite T_tracker.
    set (p' := if nlt (p_Ec p) (p_E p) then update_trajectory_tracker p else p).
    replace (if nlt (p_Ec p) (p_E p) then T d (update_trajectory_tracker p) else T d p) with (T d p')
      by (unfold p'; destruct (nlt _ _); reflexivity).
    clearbody p'. cbv zeta. cbn [fst snd]. f_equal.
    apply particle_ext; try reflexivity.
    cbn [p_pos carried placed turned set_p_dir_old set_p_asymptotic_deflection set_p_pos set_p_pos_old p_pos_old p_dir_old p_asymptotic_deflection vx vy vz p_dir fst snd].
    toR. unfold placed, turned. cbn [vx vy vz]. f_equal; ring.
  Qed.
  Lemma advance_incident a b (p : Particle R) : p_incident (fst (advance a b p)) = p_incident p.
  Proof. unfold advance. cbn [fst]. destruct (nlt _ _); [|reflexivity]. apply (tracker_incident p). Qed.

  Lemma T_densities d v : ok d -> number_densities mat (vx (tv d v)) (vy (tv d v)) (vz (tv d v)) = number_densities mat (vx v) (vy v) (vz v).
  Proof. intros H. apply (un_densities _ _ _ SY d v H). Qed.
  Lemma T_total d v : ok d -> total_number_density mat (vx (tv d v)) (vy (tv d v)) (vz (tv d v)) = total_number_density mat (vx v) (vy v) (vz v).
  Proof. intros H. unfold total_number_density. rewrite (un_densities _ _ _ SY d v H). reflexivity. Qed.
  Lemma T_concentrations d v : ok d -> g_get_concentrations (mat_geometry mat) (vx (tv d v)) (vy (tv d v)) (vz (tv d v)) = g_get_concentrations (mat_geometry mat) (vx v) (vy v) (vz v).
  Proof. intros H. apply (un_concentrations _ _ _ SY d v H). Qed.
  Lemma T_ck d v : ok d -> g_get_ck (mat_geometry mat) (vx (tv d v)) (vy (tv d v)) (vz (tv d v)) = g_get_ck (mat_geometry mat) (vx v) (vy v) (vz v).
  Proof. intros H. apply (un_ck _ _ _ SY d v H). Qed.
  Lemma T_inside d v : ok d -> mat_inside mat (vx (tv d v)) (vy (tv d v)) (vz (tv d v)) = mat_inside mat (vx v) (vy v) (vz v).
  Proof. intros H. apply (un_inside _ _ _ SY d v H). Qed.
  Lemma T_simulation d v : ok d -> mat_inside_simulation_boundary mat (vx (tv d v)) (vy (tv d v)) (vz (tv d v)) = mat_inside_simulation_boundary mat (vx v) (vy v) (vz v).
  Proof. intros H. apply (un_boundary _ _ _ SY d v H). Qed.
  Lemma T_barrier d v : ok d -> mat_inside_energy_barrier mat (vx (tv d v)) (vy (tv d v)) (vz (tv d v)) = mat_inside_energy_barrier mat (vx v) (vy v) (vz v).
  Proof. intros H. apply (un_barrier _ _ _ SY d v H). Qed.
  Lemma T_bulk d v : ok d -> average_bulk_binding_energy mat (vx (tv d v)) (vy (tv d v)) (vz (tv d v)) = average_bulk_binding_energy mat (vx v) (vy v) (vz v).
  Proof. intros H. unfold average_bulk_binding_energy. rewrite T_concentrations by exact H. reflexivity. Qed.
  Lemma T_stopping d p mode : ok d -> electronic_stopping_cross_sections mat (T d p) mode = electronic_stopping_cross_sections mat p mode.
  Proof.
    intros H. unfold electronic_stopping_cross_sections, electronic_stopping_correction_factor, number_densities. cbn [p_E p_m p_Z p_pos carried].
    set (v := p_pos p). destruct (UZ (vx (tv d v)) (vy (tv d v)) (vy (tv d v)) (vz (tv d v))) as (-> & ->).
    rewrite (un_densities _ _ _ SY d v H), (un_ck _ _ _ SY d v H). destruct (UZ (vx v) (vy v) (vy v) (vz v)) as (-> & ->). reflexivity.
  Qed.
  Lemma T_electronic d p dist x0 z i : ok d ->
    agree (fun a b => b = (T d (fst a), snd a) /\ p_incident (fst a) = p_incident p)
      (subtract_electronic_stopping_energy mat o p dist x0 z i)
      (subtract_electronic_stopping_energy mat o (T d p) dist x0 z i).
  Proof.
    intros HK.
    assert (E : electronic_loss mat o (T d p) dist x0 z i = electronic_loss mat o p dist x0 z i).
    { unfold electronic_loss. rewrite T_stopping by exact HK. cbn [p_pos p_Z p_interaction_index carried]. rewrite T_densities by exact HK. reflexivity. }
    unfold subtract_electronic_stopping_energy. rewrite E.
    cbn [p_E p_pos carried]. rewrite T_inside by exact HK.
    apply agree_bind with (R := eq); [apply agree_eq; reflexivity|]. intros [] [] _.
    destruct (mat_inside _ _ _ _); [|split; reflexivity].
    apply agree_bind with (R := eq); [apply agree_eq; reflexivity|]. intros l ? <-.
    apply agree_bind with (R := eq); [apply agree_eq; reflexivity|]. intros [] [] _.
    cbn [agree fst snd]. destruct (nlt _ _); split; reflexivity.
  Qed.
  Lemma T_surface d p : ok d -> agree (fun a b => b = T d a /\ p_incident a = p_incident p) (surface_binding_energy mat p) (surface_binding_energy mat (T d p)).
  Proof.
    intros HK. unfold surface_binding_energy.
    assert (HE : forall v, actual_surface_binding_energy mat (T d p) (vx (tv d v)) (vy (tv d v)) (vz (tv d v))
                               = actual_surface_binding_energy mat p (vx v) (vy v) (vz v))
      by (intros; unfold actual_surface_binding_energy; rewrite T_concentrations by exact HK; reflexivity).
    cbn [p_E p_dir p_pos p_pos_old p_backreflected carried].
    rewrite HE, !T_barrier by exact HK.
    apply agree_bind with (R := eq); [apply agree_eq; reflexivity|]. intros Es ? <-.
    apply agree_bind with (R := eq); [apply agree_eq; reflexivity|]. intros b1 ? <-.
    apply agree_bind with (R := eq); [apply agree_eq; reflexivity|]. intros b2 ? <-.
    unfold mat_closest_point. set (v := p_pos p). rewrite (un_closest _ _ _ SY d v HK).
    set (cp := g_closest_point _ _ _ _). cbv zeta.
    assert (DD : forall w, mkV (nsub (vx (tv d w)) (vx (tv d v))) (nsub (vy (tv d w)) (vy (tv d v))) (nsub (vz (tv d w)) (vz (tv d v))) =
              td (mkV (nsub (vx w) (vx v)) (nsub (vy w) (vy v)) (nsub (vz w) (vz v))))
      by (intros w; unfold placed, turned; cbn [vx vy vz]; toR; f_equal; ring).
    destruct (b1 && negb b2).
    - destruct (p_backreflected p); [split; reflexivity|]. destruct cp as [[[x2 y2] z2]| |]; cbn [bind fst snd agree]; auto.
      specialize (DD (mkV x2 y2 z2)).
      set (D := mkV (nsub x2 (vx v)) (nsub y2 (vy v)) (nsub z2 (vz v))).
      change (mkV (nsub (vx (mkV x2 y2 z2)) (vx v)) (nsub (vy (mkV x2 y2 z2)) (vy v)) (nsub (vz (mkV x2 y2 z2)) (vz v))) with D in DD.
      set (w := tv d (mkV x2 y2 z2)) in *.
      assert (Dx : nsub (vx w) (vx (tv d v)) = vx (td D)) by (rewrite <- DD; reflexivity).
      assert (Dy : nsub (vy w) (vy (tv d v)) = vy (td D)) by (rewrite <- DD; reflexivity).
      assert (Dz : nsub (vz w) (vz (tv d v)) = vz (td D)) by (rewrite <- DD; reflexivity).
      rewrite Dx, Dy, Dz. change (nsub x2 (vx v)) with (vx D). change (nsub y2 (vy v)) with (vy D). change (nsub z2 (vz v)) with (vz D).
      pose proof (td_normalize D) as HN. pose proof (td_magnitude D) as HM. unfold v_normalize, v_magnitude in HN. unfold v_magnitude in HM. cbv zeta in HN.
      rewrite HN. destruct (mat_surface_binding_model mat); rewrite ?T_refraction; split; reflexivity.
    - destruct (negb b1 && b2); [|split; reflexivity]. destruct cp as [[[x2 y2] z2]| |]; cbn [bind fst snd agree]; auto.
      specialize (DD (mkV x2 y2 z2)).
      set (D := mkV (nsub x2 (vx v)) (nsub y2 (vy v)) (nsub z2 (vz v))).
      change (mkV (nsub (vx (mkV x2 y2 z2)) (vx v)) (nsub (vy (mkV x2 y2 z2)) (vy v)) (nsub (vz (mkV x2 y2 z2)) (vz v))) with D in DD.
      set (w := tv d (mkV x2 y2 z2)) in *.
      assert (Dx : nsub (vx w) (vx (tv d v)) = vx (td D)) by (rewrite <- DD; reflexivity).
      assert (Dy : nsub (vy w) (vy (tv d v)) = vy (td D)) by (rewrite <- DD; reflexivity).
      assert (Dz : nsub (vz w) (vz (tv d v)) = vz (td D)) by (rewrite <- DD; reflexivity).
      rewrite Dx, Dy, Dz. change (nsub x2 (vx v)) with (vx D). change (nsub y2 (vy v)) with (vy D). change (nsub z2 (vz v)) with (vz D).
      pose proof (td_magnitude D) as HM. unfold v_magnitude in HM. rewrite HM. clear HM.
      set (mag := nsqrt _). clearbody mag D. clear Dx Dy Dz DD.
      set (u := p_dir p).
      set (ct := nadd (nadd (ndiv (nmul (vx D) (vx u)) mag) (ndiv (nmul (vy D) (vy u)) mag)) (ndiv (nmul (vz D) (vz u)) mag)).
      assert (HC : nadd (nadd (ndiv (nmul (vx (td D)) (vx (td u))) mag) (ndiv (nmul (vy (td D)) (vy (td u))) mag)) (ndiv (nmul (vz (td D)) (vz (td u))) mag) = ct).
      { pose proof (td_dot D u) as H. unfold v_dot in H. toR_in H. unfold ct. toR. unfold Rdiv.
        replace (vx (td D) * vx (td u) * / mag + vy (td D) * vy (td u) * / mag + vz (td D) * vz (td u) * / mag)
          with ((vx (td D) * vx (td u) + vy (td D) * vy (td u) + vz (td D) * vz (td u)) * / mag) by ring. rewrite H. ring. }
      rewrite HC. clearbody ct. clear HC.
      assert (HV : mkV (ndiv (nneg (vx (td D))) mag) (ndiv (nneg (vy (td D))) mag) (ndiv (nneg (vz (td D))) mag) =
               td (mkV (ndiv (nneg (vx D)) mag) (ndiv (nneg (vy D)) mag) (ndiv (nneg (vz D)) mag)))
        by (unfold turned; cbn [vx vy vz]; toR; unfold Rdiv; f_equal; ring).
      rewrite HV. clear HV.
      destruct (nlt ct (nZ 0)); [|split; reflexivity].
      destruct (nlt Es _); cbn [agree].
      + destruct (mat_surface_binding_model mat); rewrite ?T_refraction; split; reflexivity.
      + split; [|reflexivity]. apply particle_ext; try reflexivity.
        cbn [p_dir carried set_p_backreflected set_p_dir]. toR. unfold turned. cbn [vx vy vz]. f_equal; unfold Rdiv; ring.
  Qed.
  Lemma T_boundary d p : ok d -> agree (fun a b => b = T d a /\ p_incident a = p_incident p) (boundary_condition_planar mat p) (boundary_condition_planar mat (T d p)).
  Proof.
    intros HK.
    unfold boundary_condition_planar. cbn [p_E p_Ec p_pos carried].
    rewrite T_simulation, T_barrier by exact HK.
    change (set_p_left true (T d p)) with (T d (set_p_left true p)). rewrite T_tracker.
    set (p1 := if negb _ then update_trajectory_tracker (set_p_left true p) else p).
    set (q1 := if negb _ then T d (update_trajectory_tracker (set_p_left true p)) else T d p).
    assert (Hq : q1 = T d p1) by (unfold q1, p1; destruct (negb _); reflexivity).
    assert (Hi : p_incident p1 = p_incident p) by (unfold p1; destruct (negb _); [rewrite tracker_incident|]; reflexivity).
    clearbody q1. subst q1. clearbody p1.
    apply agree_bind with (R := eq); [apply agree_eq; reflexivity|]. intros b ? <-.
    change (set_p_stopped true (T d p1)) with (T d (set_p_stopped true p1)). rewrite T_tracker.
    cbn [p_left carried].
    set (p2 := if _ && b then update_trajectory_tracker (set_p_stopped true p1) else p1).
    replace (if _ && b then T d (update_trajectory_tracker (set_p_stopped true p1)) else T d p1) with (T d p2)
      by (unfold p2; destruct (_ && b); reflexivity).
    assert (Hi2 : p_incident p2 = p_incident p) by (unfold p2; destruct (_ && b); [rewrite tracker_incident|]; exact Hi).
    clearbody p2. cbn [p_left p_stopped carried]. rewrite <- Hi2.
    destruct (negb _ && negb _); [|split; reflexivity]. apply T_surface. exact HK.
  Qed.
  Lemma T_keep d d' p q : ok d' -> keep_recoil mat o (T d p) (T d' q) = keep_recoil mat o p q.
  Proof.
    intros HK. unfold keep_recoil. cbn [p_E p_Ec p_Z p_m p_pos carried].
    rewrite T_total by exact HK. unfold mat_closest_point. set (v := p_pos q). rewrite (un_closest _ _ _ SY d' v HK).
    destruct (_ && _); [|reflexivity].
    destruct (total_number_density _ _ _ _); try reflexivity. cbn [bind].
    destruct (g_closest_point _ _ _ _) as [[[x2 y2] z2]| |]; try reflexivity. cbn [bind fst snd].
    set (D := mkV (nsub x2 (vx v)) (nsub y2 (vy v)) (nsub z2 (vz v))). set (w := tv d' (mkV x2 y2 z2)).
    assert (DD : mkV (nsub (vx w) (vx (tv d' v))) (nsub (vy w) (vy (tv d' v))) (nsub (vz w) (vz (tv d' v))) = td D)
      by (unfold w, D, placed, turned; cbn [vx vy vz]; toR; f_equal; ring).
    assert (Dx : nsub (vx w) (vx (tv d' v)) = vx (td D)) by (rewrite <- DD; reflexivity).
    assert (Dy : nsub (vy w) (vy (tv d' v)) = vy (td D)) by (rewrite <- DD; reflexivity).
    assert (Dz : nsub (vz w) (vz (tv d' v)) = vz (td D)) by (rewrite <- DD; reflexivity).
    cbv zeta. rewrite Dx, Dy, Dz.
    pose proof (td_magnitude D) as HM. unfold v_magnitude in HM. rewrite HM. reflexivity.
  Qed.

  Definition bcg_rel (g g' : BinaryCollisionGeometry R) : Prop :=
    phis (bcg_phi_azimuthal g) (bcg_phi_azimuthal g') /\ bcg_impact_parameter g' = bcg_impact_parameter g /\ bcg_mfp g' = bcg_mfp g.
  Ltac step_eq := eapply mir_bind; [apply mir_lift_eq|]; intros ? ? <-.
  Ltac step_path := eapply mir_bind with (Q := eq);
    [solve [repeat match goal with
       | |- mir _ _ (first_step_path _ _ _) _ => unfold first_step_path
       | |- mir _ _ gaseous_factor _ => unfold gaseous_factor
       | |- mir _ _ (if ?b then _ else _) _ => destruct b
       | |- mir _ _ (match ?b with _ => _ end) _ => destruct b
       | |- mir _ _ (mbind mrandom _) _ => eapply mir_bind; [apply mir_random|]; intros ? ? <-
       | |- mir _ _ (mbind gaseous_factor _) _ => eapply mir_bind with (Q := eq); [unfold gaseous_factor; eapply mir_bind; [apply mir_random|]; intros ? ? <-; apply mir_ret; reflexivity|]; intros ? ? <-
       | |- mir _ _ (mret _) _ => apply mir_ret; reflexivity
       end]|]; intros ? ? <-.
  Lemma T_geometry d p : ok d ->
    mir e (fun a b => fst b = T d (fst a) /\ p_incident (fst a) = p_incident p /\ Forall2 bcg_rel (snd a) (snd b))
      (determine_mfp_phi_impact_parameter mat o p) (determine_mfp_phi_impact_parameter mat o (T d p)).
  Proof.
    intros HK. unfold determine_mfp_phi_impact_parameter, mat_mfp, average_mass, average_Z, electronic_stopping_correction_factor.
    rewrite T_stopping by exact HK.
    cbn [p_E p_Ec p_Z p_m p_pos p_first_step carried].
    rewrite !T_total, T_concentrations, T_ck, !T_densities by exact HK.
    step_eq. eapply mir_bind; [apply mir_azimuths; apply HL|]. intros rs rs' Hrs.
    assert (Hphi : forall r r', az_rel e r r' -> phis (nmul (nmul (nZ 2) npi) r) (nmul (nmul (nZ 2) npi) r')) by (intros r r' H; rewrite nZ_R; exact H).
    eapply mir_bind with (Q := phis).
    { apply mir_lift. destruct Hrs as [|r r' rs rs' Hr]; cbn [map idx nth_error agree]; auto. }
    intros phi0 phi0' Hphi0.
    assert (Hp : forall p', p' = (if p_first_step p then set_p_first_step false p else p) ->
       (if p_first_step p then set_p_first_step false (T d p) else T d p) = T d p' /\ p_incident p' = p_incident p)
      by (intros p' ->; destruct (p_first_step p); split; reflexivity).
    destruct (Hp _ eq_refl) as (Hp1 & Hp2). clear Hp.
    destruct (o_high_energy_free_flight_paths o).
    - do 6 step_eq.
      match goal with |- context [if nlt ?a ?b then mbind _ _ else _] => destruct (nlt a b) end.
      + eapply mir_bind; [apply mir_random|]; intros ? ? <-. do 2 step_path. apply mir_ret. cbn [fst snd].
        split; [exact Hp1|]. split; [exact Hp2|]. constructor; [|constructor]. split; [exact Hphi0|split; reflexivity].
      + eapply mir_bind; [apply mir_random|]; intros ? ? <-. do 2 step_path. apply mir_ret. cbn [fst snd].
        split; [exact Hp1|]. split; [exact Hp2|]. constructor; [|constructor]. split; [exact Hphi0|split; reflexivity].
    - eapply mir_bind; [apply mir_randoms|]. intros ips ? <-. do 2 step_path. apply mir_ret. cbn [fst snd].
      split; [exact Hp1|]. split; [exact Hp2|].
      match goal with |- Forall2 _ (map _ (zip _ ?l)) _ => generalize l end.
      clear - Hrs Hphi. induction Hrs as [|r r' rs rs' Hr Hrs IH]; intros l; cbn [map zip combine]; [constructor|].
      destruct l as [|x l]; cbn [combine map]; [constructor|]. constructor; [|apply IH].
      cbn [fst snd]. split; [apply Hphi; exact Hr|split; reflexivity].
  Qed.

  (** the position of a recoil: only the depth is carried along, unless the map is
      a mirror along an axis *)
  Definition displaced (d : R * R) (v w : Vector R) : R * R := (vy w - vy (td v), vz w - vz (td v)).
  Lemma recoil_at d pos dir g g' : bcg_rel g g' ->
    let r := recoil_position pos dir g in let r' := recoil_position (tv d pos) (td dir) g' in
    exists d', r' = tv d' r /\ (m_sin L = 0 -> d' = d).
  Proof.
    intros ((Hc & Hs) & Hi & Hm) r r'.
    exists (vy r' - vy (td r), vz r' - vz (td r)). split.
    - unfold placed. cbn [fst snd]. replace (vx r) with (vx r').
      + destruct r' as [x y z]. cbn [vx vy vz]. f_equal; ring.
      + unfold r, r', recoil_position. cbn [vx vy vz]. rewrite vx_tv, vx_td, Hi, Hm. toR. change (@ncos R NumR) with cos. rewrite Hc. reflexivity.
    - intros H0. pose proof HLc as H2. rewrite H0 in H2. unfold r, r', recoil_position. rewrite Hi, Hm. unfold placed, turned. cbn [vx vy vz fst snd]. toR.
      change (@ncos R NumR) with cos. change (@nsin R NumR) with sin. rewrite Hc, Hs, H0. pose proof HLs as H1.
      destruct d as [dy dz]. cbn [fst snd].
      set (sx := sqrt (IZR 1 - vx dir * vx dir)). clearbody sx. unfold Rdiv. set (i := / sx). clearbody i.
      set (c := m_cos L) in *. set (g0 := m_sign L) in *. clearbody c g0. f_equal.
      + replace (g0 * sin (bcg_phi_azimuthal g) * (g0 * (0 * vy dir + c * vz dir))) with ((g0 * g0) * (sin (bcg_phi_azimuthal g) * (c * vz dir))) by ring.
        rewrite H1. ring.
      + ring.
  Qed.
  Definition prel (p q : Particle R) : Prop := exists d, q = T d p /\ ok d /\ (p_incident p = true \/ m_sin L = 0 -> d = (0, 0)).

  Lemma T_partner d p g g' : bcg_rel g g' -> ok d ->
    mir e (fun a b => exists d', b = (fst a, T d' (snd a)) /\ p_incident (snd a) = false /\ ok d' /\ (m_sin L = 0 -> d' = d))
      (choose_collision_partner mat o p g) (choose_collision_partner mat o (T d p) g').
  Proof.
    intros Hg HK. unfold choose_collision_partner, choose, choose_with, get_cumulative_concentrations.
    cbn [p_pos p_dir carried]. destruct (recoil_at d (p_pos p) (p_dir p) g g' Hg) as (d' & -> & Hd').
    assert (HK' : ok d') by (destruct OK as [H|H]; [apply H|rewrite (Hd' H); exact HK]).
    set (r := recoil_position _ _ _). rewrite T_concentrations by exact HK'.
    eapply mir_bind with (Q := eq).
    { eapply mir_bind; [apply mir_random|]. intros ? ? <-. apply mir_lift_eq. }
    intros s ? <-. apply mir_ret. exists d'. split; [|split; [reflexivity|split; [exact HK'|exact Hd']]]. cbn [fst snd]. f_equal.
    apply particle_ext; try reflexivity.
    - cbn [p_dir carried set_p_weight set_p_tag set_p_tracked_vector particle_new]. exact (td_normalize (p_dir p)).
    - cbn [p_dir_old carried set_p_weight set_p_tag set_p_tracked_vector particle_new]. exact (td_normalize (p_dir p)).
  Qed.

  Record cs_rel (d : R * R) (a b : CollisionState R) : Prop := {
    cr_p : cs_particle_1 b = T d (cs_particle_1 a);
    cr_ps : Forall2 prel (cs_particles a) (cs_particles b);
    cr_e : cs_total_energy_lost_to_recoils b = cs_total_energy_lost_to_recoils a;
    cr_a : cs_total_asymptotic_deflection b = cs_total_asymptotic_deflection a;
    cr_n : cs_normalized_distance_of_closest_approach b = cs_normalized_distance_of_closest_approach a;
    cr_z : cs_strong_collision_Z b = cs_strong_collision_Z a;
    cr_i : cs_strong_collision_index b = cs_strong_collision_index a }.
  Lemma T_collision build k g g' d a b : bcg_rel g g' -> cs_rel d a b -> ok d -> (m_sin L = 0 -> d = (0, 0)) ->
    mir e (fun x y => cs_rel d x y /\ p_incident (cs_particle_1 x) = p_incident (cs_particle_1 a))
      (collision_step build mat o k g a) (collision_step build mat o k g' b).
  Proof.
    intros Hg [Hp Hps He Ha Hn Hz Hi] HK Hd. unfold collision_step. rewrite Hp, He, Ha, Hn, Hz, Hi.
    eapply mir_bind; [apply (T_partner d _ _ _ Hg HK)|]. intros [i p2] ? (d' & -> & Hinc & HK' & Hd'). cbn [fst snd] in *.
    set (p1 := cs_particle_1 a) in *.
    assert (HB : calculate_binary_collision build (T d p1) (T d' p2) g' o = calculate_binary_collision build p1 p2 g o).
    { destruct g as [ph ipar mf], g' as [ph' ipar' mf'], Hg as (_ & Hg1 & Hg2). cbn in Hg1, Hg2. subst. reflexivity. }
    rewrite HB. cbn [p_pos carried]. rewrite T_barrier by exact HK. step_eq. rewrite T_inside by exact HK'.
    destruct (mat_inside _ _ _ _ && _).
    2: { apply mir_ret. split; [|reflexivity]. constructor; assumption. }
    step_eq. rename x0 into r. rewrite T_bulk by exact HK'. step_eq. rename x0 into bulk.
    match goal with |- mir _ _ (mbind (mlift (keep_recoil mat o ?x ?y)) _) _ => set (P1 := x); set (P2 := y) end.
    match goal with |- mir _ _ _ (mbind (mlift (keep_recoil mat o ?x ?y)) _) =>
      assert (H1 : x = T d P1); [|assert (H2 : y = T d' P2); [|rewrite H1, H2]] end.
    { unfold P1. change (set_p_E ?E (T d p1)) with (T d (set_p_E E p1)). cbn [p_E carried].
      rewrite (T_rotate d _ _ _ _ (proj1 Hg)). destruct (_ && _); reflexivity. }
    { unfold P2. change (set_p_E ?E (T d' p2)) with (T d' (set_p_E E p2)). change (set_p_energy_origin ?E (T d' ?q)) with (T d' (set_p_energy_origin E q)).
      cbn [p_E carried]. rewrite (T_rotate d' _ _ _ _ (proj1 Hg)). reflexivity. }
    rewrite T_keep by exact HK'. eapply mir_bind; [apply mir_lift_eq|]; intros keep ? <-.
    apply mir_ret. split.
    - constructor; cbn [cs_particle_1 cs_particles cs_total_energy_lost_to_recoils cs_total_asymptotic_deflection
        cs_normalized_distance_of_closest_approach cs_strong_collision_Z cs_strong_collision_index]; try reflexivity.
      destruct keep; [|exact Hps]. constructor; [|exact Hps]. exists d'. split; [reflexivity|]. split; [exact HK'|].
      intros [C|C]; [|rewrite (Hd' C); auto]. exfalso. unfold P2 in C. cbn in C. congruence.
    - cbn [cs_particle_1]. unfold P1. destruct (_ && _); reflexivity.
  Qed.
  Lemma T_collisions build gs gs' : Forall2 bcg_rel gs gs' -> forall k d a b, cs_rel d a b -> ok d -> (m_sin L = 0 -> d = (0, 0)) ->
    mir e (fun x y => cs_rel d x y /\ p_incident (cs_particle_1 x) = p_incident (cs_particle_1 a))
      (collision_loop build mat o k gs a) (collision_loop build mat o k gs' b).
  Proof.
    induction 1 as [|g g' gs gs' Hg Hgs IH]; intros k d a b H HK Hd; cbn [collision_loop].
    - apply mir_ret. auto.
    - eapply mir_bind; [apply T_collision; eassumption|]. intros x y (Hxy & Hi). rewrite <- Hi. apply IH; assumption.
  Qed.
  Lemma F2_length {A B} (Q : A -> B -> Prop) l l' : Forall2 Q l l' -> length l = length l'.
  Proof. induction 1; cbn [length]; congruence. Qed.
  Lemma Forall2_firstn {A B} (Q : A -> B -> Prop) l l' : Forall2 Q l l' -> forall n, Forall2 Q (firstn n l) (firstn n l').
  Proof. induction 1; intros [|n]; cbn [firstn]; constructor; auto. Qed.
  Lemma T_step build p q ps qs : prel p q -> Forall2 prel ps qs ->
    mir e (fun a b => prel (fst a) (fst b) /\ Forall2 prel (snd a) (snd b)) (bca_step build mat o p ps) (bca_step build mat o q qs).
  Proof.
    intros (d & -> & HK & Hd) Hps. unfold bca_step.
    eapply mir_bind; [apply (T_geometry d _ HK)|]. intros [p1 gs] [q1 gs'] (Hq & Hi & Hgs). cbn [fst snd] in *. subst q1.
    eapply mir_bind; [apply (T_collisions build _ _ (Forall2_firstn _ _ _ Hgs _) 0%nat d (mkCS p1 ps _ _ _ _ _) (mkCS (T d p1) qs _ _ _ _ _))|].
    { constructor; try reflexivity. exact Hps. } { exact HK. } { intros H; apply Hd; auto. }
    intros a b ([Hp1 Hps1 He Ha Hn Hz Hsi] & Hi1). cbn [cs_particle_1] in Hi1. rewrite Hp1, He, Ha, Hn, Hz, Hsi.
    eapply mir_bind with (Q := fun g g' => bcg_mfp g' = bcg_mfp g).
    { apply mir_lift. destruct Hgs as [|g g' gs gs' Hg]; cbn [idx nth_error agree]; auto. apply Hg. }
    intros g g' Hg. rewrite Hg. rewrite T_advance. pose proof (advance_incident (bcg_mfp g) (cs_total_asymptotic_deflection a) (cs_particle_1 a)) as Hi2.
    destruct (advance _ _ _) as [p2 dist]. cbn [fst snd] in *.
    eapply mir_bind; [apply mir_lift, T_electronic, HK|]. intros [p3 l] ? (-> & Hi3). cbn [fst snd] in *.
    rewrite T_losses. pose proof (losses_incident (cs_total_energy_lost_to_recoils a) l p3) as Hi4.
    eapply mir_bind; [apply mir_lift, T_boundary, HK|]. intros p4 ? (-> & Hi5).
    apply mir_ret. cbn [fst snd]. split; [|exact Hps1]. exists d. split; [reflexivity|]. split; [exact HK|]. intros H. apply Hd.
    rewrite <- Hi, <- Hi1, <- Hi2, <- Hi3, <- Hi4, <- Hi5. exact H.
  Qed.
  Lemma prel_flags p q : prel p q -> p_stopped q = p_stopped p /\ p_left q = p_left p.
  Proof. intros (d & -> & _ & _). auto. Qed.
  Lemma T_loop build fuel : forall p q ps qs i, prel p q -> Forall2 prel ps qs ->
    mir e (fun a b => prel (fst (fst a)) (fst (fst b)) /\ Forall2 prel (snd (fst a)) (snd (fst b)) /\ snd b = snd a)
      (bca_loop build mat o fuel p ps i) (bca_loop build mat o fuel q qs i).
  Proof.
    induction fuel as [|fuel IH]; intros p q ps qs i H Hps; cbn [bca_loop]; [intros rng n x n' HR; discriminate HR|].
    destruct (prel_flags p q H) as (-> & ->). destruct (negb _ && negb _).
    - eapply mir_bind; [apply T_step; eassumption|]. intros [p1 ps1] [q1 qs1] (H1 & H2). cbn [fst snd] in *.
      rewrite <- (F2_length _ _ _ H2). apply IH; assumption.
    - apply mir_ret. auto.
  Qed.
  Lemma T_stack build fuel : forall ps qs out out' i, Forall2 prel ps qs -> Forall2 prel out out' ->
    mir e (Forall2 prel) (stack_loop build mat o fuel ps out i) (stack_loop build mat o fuel qs out' i).
  Proof.
    induction fuel as [|fuel IH]; intros ps qs out out' i Hps Hout; [intros rng n x n' HR; discriminate HR|].
    cbn [stack_loop]. destruct i as [|i]; [apply mir_ret; exact Hout|].
    destruct Hps as [|p q ps qs Hp Hps]; [intros rng n x n' HR; discriminate HR|].
    eapply mir_bind; [apply (T_loop build (S fuel)); eassumption|]. intros [[p1 ps1] i1] [[q1 qs1] j1] (H1 & H2 & H3). cbn [fst snd] in *. subst j1.
    apply IH; [exact H2|]. apply Forall2_app; [exact Hout|]. constructor; [exact H1|constructor].
  Qed.
  Lemma T_single build fuel p :
    mir e (Forall2 prel) (single_ion_bca build mat o fuel p) (single_ion_bca build mat o fuel (T (0, 0) p)).
  Proof.
    apply T_stack; [|constructor]. constructor; [|constructor]. exists (0, 0). auto.
  Qed.
End Turn.

Definition anywhere (d : R * R) : Prop := True.
Definition at_home (d : R * R) : Prop := d = (0, 0).
Lemma mesh0d_under L (g : Mesh0D R) : symmetric_under L anywhere (mesh0d_geometry g).
Proof. constructor; intros d v _ w; reflexivity. Qed.
Lemma mesh1d_under L (g : Mesh1D R) : symmetric_under L anywhere (mesh1d_geometry g).
Proof.
  constructor; intros d v _ w; try reflexivity. cbn [g_closest_point mesh1d_geometry]. cbv zeta. change (vx w) with (vx v).
  destruct (nlt _ _); reflexivity.
Qed.
Lemma mesh2d_under (g : Mesh2D R) : symmetric_under mirror_z at_home (mesh2d_geometry g).
Proof.
  assert (E : forall d v, at_home d -> placed mirror_z d v = mkV (vx v) (vy v) (- vz v)).
  { intros d v ->. unfold placed, turned, mirror_z. cbn [m_cos m_sin m_sign vx vy vz fst snd]. f_equal; ring. }
  constructor; intros d v H; rewrite (E d v H); cbv zeta; cbn [vx vy vz]; try reflexivity.
  cbn [mesh2d_geometry g_closest_point]. unfold polygon_closest. destruct (poly_closest_point _ _ _); cbn [bind fst snd]; rewrite ?(E d _ H); reflexivity.
Qed.
Lemma homogeneous2d_under (g : HomogeneousMesh2D R) : symmetric_under mirror_z at_home (homogeneous2d_geometry g).
Proof.
  assert (E : forall d v, at_home d -> placed mirror_z d v = mkV (vx v) (vy v) (- vz v)).
  { intros d v ->. unfold placed, turned, mirror_z. cbn [m_cos m_sin m_sign vx vy vz fst snd]. f_equal; ring. }
  constructor; intros d v H; rewrite (E d v H); cbv zeta; cbn [vx vy vz]; try reflexivity.
  cbn [homogeneous2d_geometry g_closest_point]. unfold polygon_closest. destruct (poly_closest_point _ _ _); cbn [bind fst snd]; rewrite ?(E d _ H); reflexivity.
Qed.
Lemma sphere_under L (g : Sphere R) : orthogonal L -> symmetric_under L at_home (sphere_geometry g).
Proof.
  intros HL.
  assert (E : forall d v, at_home d -> placed L d v = turned L v).
  { intros d v ->. unfold placed. destruct (turned L v) as [x y z] eqn:T. cbn [fst snd vy vz]. replace (vx v) with x by (change (vx v) with (vx (turned L v)); rewrite T; reflexivity). f_equal; ring. }
  assert (SR : forall v, sphere_r (vx (turned L v)) (vy (turned L v)) (vz (turned L v)) = sphere_r (vx v) (vy v) (vz v)).
  { intros v. pose proof (td_magnitude L HL v) as H. unfold v_magnitude in H. unfold sphere_r. toR. toR_in H. exact H. }
  constructor; intros d v H; cbv zeta; try rewrite (E d v H); try reflexivity; cbn [sphere_geometry g_inside g_inside_simulation_boundary g_inside_energy_barrier g_closest_point]; rewrite SR; try reflexivity.
  cbn [bind fst snd]. rewrite (E d _ H). unfold turned. cbn [vx vy vz]. toR. unfold Rdiv. f_equal. f_equal; [f_equal|]; ring.
Qed.
