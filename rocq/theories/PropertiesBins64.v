(** * PropertiesBins64.v - C130: histograms in double precision *)
From Coq Require Import ZArith List Bool Reals Lra Lia Floats.SpecFloat.
From Flocq Require Import Core BinarySingleNaN.
From Verif Require Import Num NumSF NumB ToyLibm ToyRounding ModelTypes ModelParticle ModelOutput ProofsBase SpecRun SpecBins64 ProofsFloat ProofsOrder64 ProofsSampling64 ProofsBins64 PropertiesDistributions.
Import ListNotations.
Open Scope R_scope.

Section Cells.
  Context {F : Type} {NF : Num F}.
  Lemma incremented n : forall k w i, increment (repeat 0%nat n) k = Ok w -> (counted w i <-> i = k).
  Proof.
    unfold counted. induction n as [|n IH]; intros k w i H; cbn [repeat increment] in H; [destruct k; discriminate|]. destruct k as [|k].
    - injection H as <-. destruct i as [|i]; cbn [nth_error]; [tauto|]. split; [|discriminate].
      intros E. apply nth_error_In, repeat_spec in E. discriminate.
    - apply bind_ok in H. destruct H as (v & H & E). injection E as <-. destruct i as [|i]; cbn [nth_error]; [split; discriminate|].
      rewrite (IH _ _ i H). split; congruence.
  Qed.
  Lemma none_counted n i : ~ counted (repeat 0%nat n) i.
  Proof. intros E. apply nth_error_In, repeat_spec in E. discriminate. Qed.
  Lemma incremented2 m n : forall k l w i j, increment2 (repeat (repeat 0%nat m) n) k l = Ok w -> counted2 w i j -> i = k /\ j = l.
  Proof.
    unfold counted2. induction n as [|n IH]; intros k l w i j H (row & Hr & Hj); cbn [repeat increment2] in H; [destruct k; discriminate|]. destruct k as [|k].
    - apply bind_ok in H. destruct H as (v & H & E). injection E as <-. destruct i as [|i]; cbn [nth_error] in Hr.
      + injection Hr as ->. split; [reflexivity|]. exact (proj1 (incremented _ _ _ j H) Hj).
      + apply nth_error_In, repeat_spec in Hr. subst row. destruct (none_counted _ _ Hj).
    - apply bind_ok in H. destruct H as (v & H & E). injection E as <-. destruct i as [|i]; cbn [nth_error] in Hr.
      + injection Hr as <-. destruct (none_counted _ _ Hj).
      + destruct (IH _ _ _ i j H) as (-> & ->); [exists row; auto|auto].
  Qed.
  Lemma none_counted2 m n i j : ~ counted2 (repeat (repeat 0%nat m) n) i j.
  Proof. intros (row & Hr & Hj). apply nth_error_In, repeat_spec in Hr. subst row. destruct (none_counted _ _ Hj). Qed.
  Lemma count_new n z w i : count_in (repeat 0%nat n) z n = Ok w -> (counted w i <-> z = Z.of_nat i /\ (i < n)%nat).
  Proof.
    unfold count_in, in_bins. destruct (Z.leb_spec 0 z) as [L|L]; cbn [andb].
    - destruct (Z.ltb_spec z (Z.of_nat n)) as [K|K]; intros H.
      + rewrite (incremented _ _ _ i H). lia.
      + injection H as <-. split; [intros H; destruct (none_counted _ _ H)|lia].
    - intros H. injection H as <-. split; [intros H; destruct (none_counted _ _ H)|lia].
  Qed.
  Lemma linspace_length (a b : F) n : length (linspace a b n) = n.
  Proof. unfold linspace. rewrite map_length, seq_length. reflexivity. Qed.
  Lemma update_cells (o : Options F) u n d p d' : distributions_update o u n d p = Ok d' ->
    exists ei ai, bin_floor (di_energies d) (fst (energy_angle_from_particle p u)) = Ok ei /\ bin_floor (di_angles d) (snd (energy_angle_from_particle p u)) = Ok ai /\
      (di_reflected_ead d' = di_reflected_ead d \/
         (in_bins ei (length (di_energies d)) = true /\ in_bins ai (length (di_angles d)) = true /\ increment2 (di_reflected_ead d) (Z.to_nat ei) (Z.to_nat ai) = Ok (di_reflected_ead d'))) /\
      (di_sputtered_ead d' = di_sputtered_ead d \/
         (in_bins ei (length (di_energies d)) = true /\ in_bins ai (length (di_angles d)) = true /\ increment2 (di_sputtered_ead d) (Z.to_nat ei) (Z.to_nat ai) = Ok (di_sputtered_ead d'))) /\
      (if deposited p then exists xi yi zi,
         bin_cast (di_x_range d) (vx (p_pos p) /! ou_length_unit u)%num = Ok xi /\ count_in (di_implanted_x d) xi (length (di_x_range d)) = Ok (di_implanted_x d') /\
         bin_cast (di_y_range d) (vy (p_pos p) /! ou_length_unit u)%num = Ok yi /\ count_in (di_implanted_y d) yi (length (di_y_range d)) = Ok (di_implanted_y d') /\
         bin_cast (di_z_range d) (vz (p_pos p) /! ou_length_unit u)%num = Ok zi /\ count_in (di_implanted_z d) zi (length (di_z_range d)) = Ok (di_implanted_z d')
       else di_implanted_x d' = di_implanted_x d /\ di_implanted_y d' = di_implanted_y d /\ di_implanted_z d' = di_implanted_z d).
  Proof.
    unfold distributions_update. destruct (energy_angle_from_particle p u) as (en & an). cbn [fst snd]. intros H.
    apply bind_ok in H. destruct H as (ei & He & H). apply bind_ok in H. destruct H as (ai & Ha & H). cbv zeta in H.
    apply bind_ok in H. destruct H as (rf & Hrf & H). apply bind_ok in H. destruct H as (sp & Hsp & H). apply bind_ok in H. destruct H as (((ix & iy) & iz) & Him & H).
    assert (C : di_reflected_ead d' = rf /\ di_sputtered_ead d' = sp /\ di_implanted_x d' = ix /\ di_implanted_y d' = iy /\ di_implanted_z d' = iz).
    { destruct (_ && p_incident p); [apply add_losses_counts in H; cbn in H; exact H|injection H as <-; cbn; tauto]. }
    destruct C as (-> & -> & -> & -> & ->). clear H. exists ei, ai. split; [exact He|]. split; [exact Ha|]. split; [|split].
    - destruct (in_bins ei _), (in_bins ai _), (p_incident p), (p_left p); cbn [andb negb] in Hrf; first [left; injection Hrf as <-; reflexivity|right; auto].
    - destruct (in_bins ei _), (in_bins ai _), (p_incident p), (p_left p); cbn [andb negb] in Hsp; first [left; injection Hsp as <-; reflexivity|right; auto].
    - unfold deposited. destruct (p_incident p && p_stopped p); [|injection Him as <- <- <-; auto].
      apply bind_ok in Him. destruct Him as (xi & Hx & Him). apply bind_ok in Him. destruct Him as (yi & Hy & Him). apply bind_ok in Him. destruct Him as (zi & Hz & Him).
      apply bind_ok in Him. destruct Him as (a & Ha' & Him). apply bind_ok in Him. destruct Him as (b & Hb & Him). apply bind_ok in Him. destruct Him as (c & Hc & Him).
      injection Him as <- <- <-. exists xi, yi, zi. auto 10.
  Qed.
End Cells.

Section Order.
  Context (lm : LibmB).
  Let NB : Num f64 := NumB lm.
  #[local] Existing Instance NB.
  Lemma axis_edges (edges : list f64) e0 e1 r : usable_edges edges e0 e1 -> axis edges = Ok r -> r = (e0, Bminus mode_NE e1 e0).
  Proof.
    intros (H0 & H1 & _) H. unfold axis, idx in H. rewrite H0, H1 in H. cbn [bind] in H. injection H as <-. reflexivity.
  Qed.
  Lemma floor_bins (edges : list f64) e0 e1 (v w : f64) i j : usable_edges edges e0 e1 -> in_order v w ->
    bin_floor edges v = Ok i -> bin_floor edges w = Ok j -> (i <= j)%Z.
  Proof.
    intros He (Fv & Fw & Hvw) Hi Hj. unfold bin_floor in Hi, Hj. apply bind_ok in Hi. destruct Hi as (r & Hr & Hi). rewrite Hr in Hj. cbn [bind] in Hj.
    apply (axis_edges _ _ _ _ He) in Hr. subst r. destruct He as (_ & _ & F0 & Fd & Hd).
    destruct (position_mono lm e0 _ v w F0 Fd Hd Fv Fw Hvw) as (N1 & N2 & K). injection Hi as <-. injection Hj as <-. apply (floor_index_mono lm); assumption.
  Qed.
  Lemma cast_bins (edges : list f64) e0 e1 (v w : f64) i j : usable_edges edges e0 e1 -> in_order v w ->
    bin_cast edges v = Ok i -> bin_cast edges w = Ok j -> (i <= j)%Z.
  Proof.
    intros He (Fv & Fw & Hvw) Hi Hj. unfold bin_cast in Hi, Hj. apply bind_ok in Hi. destruct Hi as (r & Hr & Hi). rewrite Hr in Hj. cbn [bind] in Hj.
    apply (axis_edges _ _ _ _ He) in Hr. subst r. destruct He as (_ & _ & F0 & Fd & Hd).
    destruct (position_mono lm e0 _ v w F0 Fd Hd Fv Fw Hvw) as (N1 & N2 & K). injection Hi as <-. injection Hj as <-. apply (cast_index_mono lm); assumption.
  Qed.
End Order.

(** ** C130 *)
(** Larger values never go to lower bins, whatever the axis and the rounding: of two deposited ions the one
    further along an axis is not counted in an earlier bin of it; and of two emitted particles the one with
    the larger energy, or the larger angle, is not counted in a lower row, or column. *)
Theorem C130_order_is_kept :
  forall (lm : LibmB) (axes : DistOptions f64) o u n p q d1 d2,
    let NB := NumB lm in
    let new := distributions_new axes in
    distributions_update o u n new p = Ok d1 -> distributions_update o u n new q = Ok d2 ->
    (forall coordinate edges histogram i j e0 e1,
       In (coordinate, edges, histogram)
         [(@vx f64, di_x_range new, @di_implanted_x f64); (@vy f64, di_y_range new, @di_implanted_y f64); (@vz f64, di_z_range new, @di_implanted_z f64)] ->
       usable_edges edges e0 e1 -> in_order (place coordinate u p) (place coordinate u q) ->
       counted (histogram d1) i -> counted (histogram d2) j -> (i <= j)%nat) /\
    (forall ead i j a b e0 e1, In ead [@di_reflected_ead f64; @di_sputtered_ead f64] -> counted2 (ead d1) i a -> counted2 (ead d2) j b ->
       (usable_edges (di_energies new) e0 e1 -> in_order (energy_of u p) (energy_of u q) -> (i <= j)%nat) /\
       (usable_edges (di_angles new) e0 e1 -> in_order (angle_of (lm := lm) u p) (angle_of (lm := lm) u q) -> (a <= b)%nat)).
Proof.
  intros lm axes o u n p q d1 d2 NB new H1 H2. apply update_cells in H1, H2.
  destruct H1 as (ei & ai & He & Ha & Hr & Hs & Hd). destruct H2 as (ei' & ai' & He' & Ha' & Hr' & Hs' & Hd').
  cbn [new distributions_new di_implanted_x di_implanted_y di_implanted_z di_reflected_ead di_sputtered_ead di_x_range di_y_range di_z_range di_energies di_angles] in *.
  rewrite !linspace_length in *. split.
  - intros coordinate edges histogram i j e0 e1 Hin Hu Ho Hi Hj.
    destruct (deposited p); [|destruct Hd as (A & B & C); cbn [In] in Hin; destruct Hin as [E|[E|[E|[]]]]; injection E as <- <- <-;
      rewrite ?A, ?B, ?C in Hi; destruct (none_counted _ _ Hi)].
    destruct (deposited q); [|destruct Hd' as (A & B & C); cbn [In] in Hin; destruct Hin as [E|[E|[E|[]]]]; injection E as <- <- <-;
      rewrite ?A, ?B, ?C in Hj; destruct (none_counted _ _ Hj)].
    destruct Hd as (xi & yi & zi & X1 & X2 & Y1 & Y2 & Z1 & Z2). destruct Hd' as (xi' & yi' & zi' & X1' & X2' & Y1' & Y2' & Z1' & Z2').
    cbn [In] in Hin. destruct Hin as [E|[E|[E|[]]]]; injection E as <- <- <-.
    + apply (count_new _ _ _ _ X2) in Hi. apply (count_new _ _ _ _ X2') in Hj. pose proof (cast_bins lm _ _ _ _ _ _ _ Hu Ho X1 X1'). lia.
    + apply (count_new _ _ _ _ Y2) in Hi. apply (count_new _ _ _ _ Y2') in Hj. pose proof (cast_bins lm _ _ _ _ _ _ _ Hu Ho Y1 Y1'). lia.
    + apply (count_new _ _ _ _ Z2) in Hi. apply (count_new _ _ _ _ Z2') in Hj. pose proof (cast_bins lm _ _ _ _ _ _ _ Hu Ho Z1 Z1'). lia.
  - intros ead i j a b e0 e1 Hin Hi Hj.
    assert (P : i = Z.to_nat ei /\ a = Z.to_nat ai /\ j = Z.to_nat ei' /\ b = Z.to_nat ai').
    { cbn [In] in Hin. destruct Hin as [<-|[<-|[]]].
      - destruct Hr as [Hr|(_ & _ & Hr)]; [rewrite Hr in Hi; destruct (none_counted2 _ _ _ _ Hi)|].
        destruct Hr' as [Hr'|(_ & _ & Hr')]; [rewrite Hr' in Hj; destruct (none_counted2 _ _ _ _ Hj)|].
        apply (incremented2 _ _ _ _ _ _ _ Hr) in Hi. apply (incremented2 _ _ _ _ _ _ _ Hr') in Hj. tauto.
      - destruct Hs as [Hs|(_ & _ & Hs)]; [rewrite Hs in Hi; destruct (none_counted2 _ _ _ _ Hi)|].
        destruct Hs' as [Hs'|(_ & _ & Hs')]; [rewrite Hs' in Hj; destruct (none_counted2 _ _ _ _ Hj)|].
        apply (incremented2 _ _ _ _ _ _ _ Hs) in Hi. apply (incremented2 _ _ _ _ _ _ _ Hs') in Hj. tauto. }
    destruct P as (-> & -> & -> & ->). split; intros Hu Ho.
    + pose proof (floor_bins lm _ _ _ _ _ _ _ Hu Ho He He'). lia.
    + pose proof (floor_bins lm _ _ _ _ _ _ _ Hu Ho Ha Ha'). lia.
Qed.
Print Assumptions C130_order_is_kept.

Section FromZero.
  Context (lm : LibmB).
  Let NB : Num f64 := NumB lm.
  #[local] Existing Instance NB.
  Lemma zero_axis (edges : list f64) step : edges_from_zero edges step -> exists e0, fin e0 /\ B2R e0 = 0 /\ axis edges = Ok (e0, Bminus mode_NE step e0).
  Proof. intros ((e0 & E0 & F0 & Z0) & E1 & _). exists e0. unfold axis, idx. rewrite E0, E1. auto. Qed.
  Lemma floor_from_zero (edges : list f64) step v z : edges_from_zero edges step -> from_zero_up v -> bin_floor edges v = Ok z ->
    (forall i, (Z.of_nat i < 2 ^ 31 - 1)%Z -> z = Z.of_nat i -> in_step i step v).
  Proof.
    intros He (Fv & Pv) Hz i Hi ->. destruct (zero_axis _ _ He) as (e0 & F0 & Z0 & A). destruct He as (_ & _ & F1 & P1).
    unfold bin_floor in Hz. rewrite A in Hz. cbn [bind] in Hz. injection Hz as Hz.
    destruct (from_zero _ e0 step v (or_introl eq_refl) F0 Z0 F1 P1 Fv Pv) as (B & _). specialize (B (Z.of_nat i) ltac:(lia) Hz).
    unfold in_step. rewrite S_INR, !INR_IZR_INZ. rewrite plus_IZR in B. exact B.
  Qed.
  Lemma cast_from_zero (edges : list f64) step v z : edges_from_zero edges step -> from_zero_up v -> bin_cast edges v = Ok z ->
    (forall i, (Z.of_nat i < 2 ^ 31 - 1)%Z -> z = Z.of_nat i -> in_step i step v) /\
    (forall num, (Z.of_nat num <= 2 ^ 31 - 1)%Z -> B2R v < INR num * B2R step * (1 - bpow radix2 (-53)) -> (0 <= z < Z.of_nat num)%Z).
  Proof.
    intros He (Fv & Pv) Hz. destruct (zero_axis _ _ He) as (e0 & F0 & Z0 & A). destruct He as (_ & _ & F1 & P1).
    unfold bin_cast in Hz. rewrite A in Hz. cbn [bind] in Hz. injection Hz as Hz.
    destruct (from_zero _ e0 step v (or_intror eq_refl) F0 Z0 F1 P1 Fv Pv) as (B & C). split.
    - intros i Hi ->. specialize (B (Z.of_nat i) ltac:(lia) Hz). unfold in_step. rewrite S_INR, !INR_IZR_INZ. rewrite plus_IZR in B. exact B.
    - intros num Hn Hv. rewrite <- Hz. apply C; [lia|]. rewrite <- INR_IZR_INZ. exact Hv.
  Qed.
End FromZero.

(** On an axis that starts at zero, what is counted in bin i lies between i and i + 1 steps, up to one part in
    2^53 at the lower end; and nothing below num steps, less one part in 2^53, is left out. *)
Theorem C130_axes_from_zero_partial :
  forall (lm : LibmB) (axes : DistOptions f64) o u n p d1,
    let NB := NumB lm in
    let new := distributions_new axes in
    distributions_update o u n new p = Ok d1 ->
    (forall coordinate edges num histogram step,
       In (coordinate, edges, num, histogram)
         [(@vx f64, di_x_range new, d_x_num axes, di_implanted_x d1); (@vy f64, di_y_range new, d_y_num axes, di_implanted_y d1);
          (@vz f64, di_z_range new, d_z_num axes, di_implanted_z d1)] ->
       edges_from_zero edges step -> (Z.of_nat num < 2 ^ 31)%Z -> from_zero_up (place coordinate u p) ->
       (forall i, counted histogram i -> in_step i step (place coordinate u p)) /\
       (deposited p = true -> B2R (place coordinate u p) < INR num * B2R step * (1 - bpow radix2 (-53)) -> exists i, counted histogram i)) /\
    (forall ead i a step, In ead [di_reflected_ead d1; di_sputtered_ead d1] -> counted2 ead i a ->
       (edges_from_zero (di_energies new) step -> (Z.of_nat (d_energy_num axes) < 2 ^ 31)%Z -> from_zero_up (energy_of u p) -> in_step i step (energy_of u p)) /\
       (edges_from_zero (di_angles new) step -> (Z.of_nat (d_angle_num axes) < 2 ^ 31)%Z -> from_zero_up (angle_of (lm := lm) u p) -> in_step a step (angle_of (lm := lm) u p))).
Proof.
  intros lm axes o u n p d1 NB new H. apply update_cells in H. destruct H as (ei & ai & He & Ha & Hr & Hs & Hd).
  cbn [new distributions_new di_implanted_x di_implanted_y di_implanted_z di_reflected_ead di_sputtered_ead di_x_range di_y_range di_z_range di_energies di_angles] in *.
  rewrite !linspace_length in *. split.
  - intros coordinate edges num histogram step Hin Hu Hn Hv.
    assert (G : forall z, bin_cast edges (place coordinate u p) = Ok z -> count_in (repeat 0%nat num) z num = Ok histogram ->
      (forall i, counted histogram i -> in_step i step (place coordinate u p)) /\
      (deposited p = true -> B2R (place coordinate u p) < INR num * B2R step * (1 - bpow radix2 (-53)) -> exists i, counted histogram i)).
    { intros z Hz Hc. destruct (cast_from_zero lm _ _ _ _ Hu Hv Hz) as (A & B). split.
      - intros i Hi. apply (count_new _ _ _ _ Hc) in Hi. destruct Hi as (-> & Hi). apply A; [lia|reflexivity].
      - intros _ Hb. specialize (B num ltac:(lia) Hb). exists (Z.to_nat z). apply (count_new _ _ _ _ Hc). lia. }
    destruct (deposited p) eqn:Ed.
    + destruct Hd as (xi & yi & zi & X1 & X2 & Y1 & Y2 & Z1 & Z2). cbn [In] in Hin. destruct Hin as [E|[E|[E|[]]]]; injection E as <- <- <- <-; eapply G; eassumption.
    + destruct Hd as (A & B & C). split; [|discriminate].
      cbn [In] in Hin. destruct Hin as [E|[E|[E|[]]]]; injection E as <- <- <- <-; rewrite ?A, ?B, ?C; intros i Hi; destruct (none_counted _ _ Hi).
  - intros ead i a step Hin Hi.
    assert (P : in_bins ei (d_energy_num axes) = true /\ in_bins ai (d_angle_num axes) = true /\ i = Z.to_nat ei /\ a = Z.to_nat ai).
    { cbn [In] in Hin. destruct Hin as [<-|[<-|[]]].
      - destruct Hr as [Hr|(B1 & B2 & Hr)]; [rewrite Hr in Hi; destruct (none_counted2 _ _ _ _ Hi)|]. apply (incremented2 _ _ _ _ _ _ _ Hr) in Hi. tauto.
      - destruct Hs as [Hs|(B1 & B2 & Hs)]; [rewrite Hs in Hi; destruct (none_counted2 _ _ _ _ Hi)|]. apply (incremented2 _ _ _ _ _ _ _ Hs) in Hi. tauto. }
    destruct P as (B1 & B2 & -> & ->). unfold in_bins in B1, B2. apply andb_prop in B1, B2. rewrite Z.leb_le, Z.ltb_lt in B1, B2. split; intros Hu Hn Hv.
    + apply (floor_from_zero lm _ _ _ _ Hu Hv He); lia.
    + apply (floor_from_zero lm _ _ _ _ Hu Hv Ha); lia.
Qed.
Print Assumptions C130_axes_from_zero_partial.

(** A deposited ion whose position is not a number is counted in the first bin, whatever the axis. *)
Theorem C130_nan_refuted :
  forall (lm : LibmB) (axes : DistOptions f64) o u n p d1,
    let NB := NumB lm in
    distributions_update o u n (distributions_new axes) p = Ok d1 -> deposited p = true ->
    (is_nan (vx (p_pos p)) = true -> counted (di_implanted_x d1) 0) /\
    (is_nan (vy (p_pos p)) = true -> counted (di_implanted_y d1) 0) /\
    (is_nan (vz (p_pos p)) = true -> counted (di_implanted_z d1) 0).
Proof.
  intros lm axes o u n p d1 NB H Hdep. apply update_cells in H. destruct H as (ei & ai & _ & _ & _ & _ & Hd). rewrite Hdep in Hd.
  destruct Hd as (xi & yi & zi & X1 & X2 & Y1 & Y2 & Z1 & Z2).
  cbn [distributions_new di_implanted_x di_implanted_y di_implanted_z di_x_range di_y_range di_z_range] in *. rewrite !linspace_length in *.
  assert (G : forall (a b : f64) num (c l : f64) z w, bin_cast (linspace a b num) (ndiv c l) = Ok z -> count_in (repeat 0%nat num) z num = Ok w -> is_nan c = true -> counted w 0).
  { intros a b num c l z w Hz Hc Hn. unfold bin_cast in Hz. apply bind_ok in Hz. destruct Hz as ((r0 & dl) & Hx & Hz). injection Hz as Hz.
    apply (count_new _ _ _ _ Hc). split.
    - destruct c; try discriminate Hn. rewrite <- Hz. reflexivity.
    - unfold axis in Hx. apply bind_ok in Hx. destruct Hx as (r1 & Hx & _). destruct num; [discriminate Hx|lia]. }
  split; [|split]; intros Hn; [exact (G _ _ _ _ _ _ _ X1 X2 Hn)|exact (G _ _ _ _ _ _ _ Y1 Y2 Hn)|exact (G _ _ _ _ _ _ _ Z1 Z2 Hn)].
Qed.
Print Assumptions C130_nan_refuted.

(** With a hundred energy bins from 0 to 1000 eV, a reflected ion with exactly the energy tabulated as the
    lower edge of bin 13 is counted in bin 12. *)
Definition crude : LibmB := libm_on_doubles toy_libm.
Definition hundred_bins : DistOptions f64 := let NB := NumB crude in
  mkDistOptions (nZ 0) (nZ 1000) 100 (nZ 0) (nZ 90) 2 (nZ 0) (nZ 1) 2 (nZ 0) (nZ 1) 2 (nZ 0) (nZ 1) 2.
Definition crude_options : Options f64 := let NB := NumB crude in {|
  o_track_trajectories := false; o_track_recoils := false; o_track_recoil_trajectories := false;
  o_write_buffer_size := 8%nat; o_weak_collision_order := 0%nat; o_suppress_deep_recoils := false;
  o_high_energy_free_flight_paths := false; o_electronic_stopping_mode := LOW_ENERGY_NONLOCAL;
  o_mean_free_path_model := LIQUID; o_interaction_potential := [[KR_C]]; o_scattering_integral := [[MENDENHALL_WELLER]];
  o_root_finder := [[DEFAULTNEWTON]]; o_num_threads := 1%nat; o_num_chunks := 1%nat; o_use_hdf5 := false;
  o_track_displacements := false; o_track_energy_losses := false |}.
Definition edge_ion (e : f64) : Particle f64 := let NB := NumB crude in {|
  p_m := nZ 1; p_Z := nZ 1; p_E := e; p_Ec := nZ 1; p_Es := nZ 0; p_Ed := nZ 0; p_pos := mkV (nZ (-1)) (nZ 0) (nZ 0); p_dir := mkV (nZ (-1)) (nZ 0) (nZ 0);
  p_pos_old := mkV (nZ 0) (nZ 0) (nZ 0); p_dir_old := mkV (nZ (-1)) (nZ 0) (nZ 0);
  p_pos_origin := mkV (nZ 0) (nZ 0) (nZ 0); p_energy_origin := e; p_asymptotic_deflection := nZ 0; p_stopped := false; p_left := true; p_incident := true; p_first_step := false;
  p_trajectory := []; p_energies := []; p_track_trajectories := false; p_number_collision_events := 1%nat; p_backreflected := false; p_interaction_index := 0%nat;
  p_weight := nZ 1; p_tag := 0%Z; p_tracked_vector := mkV (nZ 0) (nZ 0) (nZ 0) |}.
Definition crude_units : OutputUnits f64 := let NB := NumB crude in mkOU (nZ 1) (nZ 1) (nZ 1).
Definition same_number (x y : f64) : bool := match B2SF x, B2SF y with
  S754_finite s m e, S754_finite s' m' e' => Bool.eqb s s' && Pos.eqb m m' && Z.eqb e e' | _, _ => false end.
Lemma same_number_eq x y : same_number x y = true -> x = y.
Proof.
  unfold same_number. destruct (B2SF x) as [| | |s m e] eqn:Ex; try discriminate. destruct (B2SF y) as [| | |s' m' e'] eqn:Ey; try discriminate.
  intros H. apply andb_prop in H. destruct H as (H & He). apply andb_prop in H. destruct H as (Hs & Hm).
  apply Bool.eqb_prop in Hs. apply Pos.eqb_eq in Hm. apply Z.eqb_eq in He. subst. apply B2SF_inj. congruence.
Qed.
Definition in_row (h : list (list nat)) (i : nat) : bool :=
  match nth_error h i with Some row => existsb (fun a => match nth_error row a with Some 1%nat => true | _ => false end) [0%nat; 1%nat] | None => false end.
Lemma in_row_counted h i : in_row h i = true -> exists a, counted2 h i a.
Proof.
  unfold in_row, counted2. destruct (nth_error h i) as [row|]; [|discriminate]. intros H. apply existsb_exists in H. destruct H as (a & _ & H).
  exists a, row. split; [reflexivity|]. destruct (nth_error row a) as [[|[|n]]|]; try discriminate H. reflexivity.
Qed.
(** the bin in which [row] says an ion with the energy tabulated at place i is counted *)
Definition counted_at (i row : nat) : bool := let NB := NumB crude in
  match nth_error (di_energies (distributions_new hundred_bins)) i with
  | Some edge => match distributions_update crude_options crude_units 1 (distributions_new hundred_bins) (edge_ion edge) with
      | Ok d1 => in_row (di_reflected_ead d1) row && same_number (energy_of crude_units (edge_ion edge)) edge
      | _ => false end
  | None => false end.
Lemma counted_at_spec i row : counted_at i row = true -> let NB := NumB crude in
  exists edge d1, nth_error (di_energies (distributions_new hundred_bins)) i = Some edge /\ energy_of crude_units (edge_ion edge) = edge /\
    distributions_update crude_options crude_units 1 (distributions_new hundred_bins) (edge_ion edge) = Ok d1 /\ exists a, counted2 (di_reflected_ead d1) row a.
Proof.
  unfold counted_at. cbv zeta. destruct (nth_error _ i) as [edge|]; [|discriminate].
  destruct (distributions_update _ _ _ _ _) as [d1| |] eqn:E; try discriminate. intros H. apply andb_prop in H. destruct H as (H & K).
  exists edge, d1. split; [reflexivity|]. split; [exact (same_number_eq _ _ K)|]. split; [exact E|]. exact (in_row_counted _ _ H).
Qed.
Theorem C130_edge_refuted :
  exists (lm : LibmB) (axes : DistOptions f64) o u edge d1, let NB := NumB lm in
    d_energy_min axes = nZ 0 /\ d_energy_max axes = nZ 1000 /\ d_energy_num axes = 100%nat /\
    nth_error (di_energies (distributions_new axes)) 13 = Some edge /\ energy_of u (edge_ion edge) = edge /\
    distributions_update o u 1 (distributions_new axes) (edge_ion edge) = Ok d1 /\ exists a, counted2 (di_reflected_ead d1) 12 a.
Proof.
  destruct (counted_at_spec 13 12 ltac:(vm_compute; reflexivity)) as (edge & d1 & H).
  exists crude, hundred_bins, crude_options, crude_units, edge, d1. cbv zeta in *. split; [reflexivity|]. split; [reflexivity|]. split; [reflexivity|]. exact H.
Qed.
Print Assumptions C130_edge_refuted.

(** ** The hypotheses can be met *)
(** The energy axis of the hundred bins starts at zero and its second edge is a positive number. *)
Definition positive (x : f64) : bool := match B2SF x with S754_finite false _ _ => true | _ => false end.
Lemma positive_fin x : positive x = true -> is_finite x = true /\ 0 < B2R x.
Proof.
  unfold positive. destruct x as [s|s| |s m e H]; try discriminate. destruct s; [discriminate|]. intros _. split; [reflexivity|].
  cbn [B2R]. apply F2R_gt_0. reflexivity.
Qed.
Definition zero64 (x : f64) : bool := match B2SF x with S754_zero _ => true | _ => false end.
Lemma zero_fin x : zero64 x = true -> is_finite x = true /\ B2R x = 0.
Proof. unfold zero64. destruct x; try discriminate. split; reflexivity. Qed.
Definition starts_at_zero (edges : list f64) : bool := match edges with e0 :: step :: _ => zero64 e0 && positive step && positive (Bminus mode_NE step e0) | _ => false end.
Lemma starts_at_zero_spec edges : starts_at_zero edges = true -> (exists e0 e1, usable_edges edges e0 e1) /\ exists step, edges_from_zero edges step.
Proof.
  unfold starts_at_zero. destruct edges as [|e0 [|step rest]]; try discriminate. intros H. apply andb_prop in H. destruct H as (H & K). apply andb_prop in H. destruct H as (Z0 & P).
  apply zero_fin in Z0. apply positive_fin in P, K. split.
  - exists e0, step. repeat split; tauto.
  - exists step. split; [exists e0; repeat split; tauto|]. repeat split; tauto.
Qed.
Example C130_axes_exist : let NB := NumB crude in let axis := di_energies (distributions_new hundred_bins) in
  (exists e0 e1, usable_edges axis e0 e1) /\ exists step, edges_from_zero axis step.
Proof. apply starts_at_zero_spec. vm_compute. reflexivity. Qed.
(** Two reflected ions, at the tabulated energies 13 and 50: both updates end, the ions are in order, and they
    are counted in rows 12 and 50. *)
Definition ordered64 (v w : f64) : bool := positive v && positive w && Bleb v w.
Example C130_order_applies : let NB := NumB crude in
  exists edge edge' d1 d2,
    distributions_update crude_options crude_units 1 (distributions_new hundred_bins) (edge_ion edge) = Ok d1 /\ (exists a, counted2 (di_reflected_ead d1) 12 a) /\
    distributions_update crude_options crude_units 1 (distributions_new hundred_bins) (edge_ion edge') = Ok d2 /\ (exists a, counted2 (di_reflected_ead d2) 50 a) /\
    in_order (energy_of crude_units (edge_ion edge)) (energy_of crude_units (edge_ion edge')) /\ from_zero_up (energy_of crude_units (edge_ion edge)).
Proof.
  destruct (counted_at_spec 13 12 ltac:(vm_compute; reflexivity)) as (edge & d1 & E1 & V1 & U1 & C1).
  destruct (counted_at_spec 50 50 ltac:(vm_compute; reflexivity)) as (edge' & d2 & E2 & V2 & U2 & C2).
  exists edge, edge', d1, d2. cbv zeta. split; [exact U1|]. split; [exact C1|]. split; [exact U2|]. split; [exact C2|]. rewrite V1, V2.
  assert (O : match nth_error (let NB := NumB crude in di_energies (distributions_new hundred_bins)) 13, nth_error (let NB := NumB crude in di_energies (distributions_new hundred_bins)) 50 with
              | Some v, Some w => ordered64 v w | _, _ => false end = true) by (vm_compute; reflexivity).
  cbv zeta in O, E1, E2. rewrite E1, E2 in O. unfold ordered64 in O. apply andb_prop in O. destruct O as (O & L). apply andb_prop in O. destruct O as (P & P').
  apply positive_fin in P, P'. unfold in_order, from_zero_up. repeat split; try tauto; [|lra]. apply le_fin; tauto.
Qed.
(** an ion that came to rest at the given depth *)
Definition resting_ion (x : f64) : Particle f64 := let NB := NumB crude in {|
  p_m := nZ 1; p_Z := nZ 1; p_E := nZ 1; p_Ec := nZ 1; p_Es := nZ 0; p_Ed := nZ 0; p_pos := mkV x (nZ 0) (nZ 0); p_dir := mkV (nZ 1) (nZ 0) (nZ 0);
  p_pos_old := mkV (nZ 0) (nZ 0) (nZ 0); p_dir_old := mkV (nZ 1) (nZ 0) (nZ 0);
  p_pos_origin := mkV (nZ 0) (nZ 0) (nZ 0); p_energy_origin := nZ 1; p_asymptotic_deflection := nZ 0; p_stopped := true; p_left := false; p_incident := true; p_first_step := false;
  p_trajectory := []; p_energies := []; p_track_trajectories := false; p_number_collision_events := 1%nat; p_backreflected := false; p_interaction_index := 0%nat;
  p_weight := nZ 1; p_tag := 0%Z; p_tracked_vector := mkV (nZ 0) (nZ 0) (nZ 0) |}.
Definition half64 : f64 := of_sf (sf_lit 5 (-1)).
(** Resting at depth one half, with edges 0 and 1 along x, it is counted in the first bin: all the hypotheses on
    deposited ions hold of it. Resting at a depth that is not a number, it is counted too. *)
Example C130_deposited : let NB := NumB crude in
  (exists d1, distributions_update crude_options crude_units 1 (distributions_new hundred_bins) (resting_ion half64) = Ok d1 /\ counted (di_implanted_x d1) 0) /\
  deposited (resting_ion half64) = true /\ (exists step, edges_from_zero (di_x_range (distributions_new hundred_bins)) step) /\
  from_zero_up (place (@vx f64) crude_units (resting_ion half64)) /\
  (exists d2, distributions_update crude_options crude_units 1 (distributions_new hundred_bins) (resting_ion B754_nan) = Ok d2 /\ is_nan (vx (p_pos (resting_ion B754_nan))) = true).
Proof.
  cbv zeta. set (NB := NumB crude). split; [|split; [reflexivity|split; [|split]]].
  - assert (H : match distributions_update crude_options crude_units 1 (distributions_new hundred_bins) (resting_ion half64) with
                | Ok d1 => match nth_error (di_implanted_x d1) 0 with Some 1%nat => true | _ => false end | _ => false end = true) by (vm_compute; reflexivity).
    destruct (distributions_update _ _ _ _ (resting_ion half64)) as [d1| |]; try discriminate. exists d1. split; [reflexivity|]. unfold counted.
    destruct (nth_error (di_implanted_x d1) 0) as [[|[|n]]|]; try discriminate H. reflexivity.
  - apply starts_at_zero_spec. vm_compute. reflexivity.
  - destruct (positive_fin (place (@vx f64) crude_units (resting_ion half64))) as (A & B); [vm_compute; reflexivity|]. split; [exact A|lra].
  - assert (H : match distributions_update crude_options crude_units 1 (distributions_new hundred_bins) (resting_ion B754_nan) with Ok _ => true | _ => false end = true) by (vm_compute; reflexivity).
    destruct (distributions_update _ _ _ _ (resting_ion B754_nan)) as [d2| |]; try discriminate. exists d2. split; reflexivity.
Qed.
