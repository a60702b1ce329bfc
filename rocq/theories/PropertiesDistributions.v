(** * PropertiesDistributions.v - C127, C128: runs of the build with histograms *)
From Coq Require Import ZArith List Bool String Lia Floats.SpecFloat.
From Verif Require Import Num NumSF ModelTypes ModelParticle ModelMaterial ModelBca ModelInput ModelToml ModelOutput ModelPhysics ModelDistributions
  ProofsBase ProofsInput ProofsToml Spec SpecRun SpecToml SpecDistributions ProofsRun ProofsHist PropertiesTransport PropertiesRun PropertiesToml Toy.
Import ListNotations.
Open Scope string_scope.
Open Scope nat_scope.

Section Lemmas.
  Context {F : Type} {NF : Num F}.
  Lemma ppd_inv (o : Options F) u n ps : forall s d es s' d' es',
    process_particles_distributions o u n s d es ps = Ok (s', d', es') ->
    process_particles o u s es ps = Ok (s', es') /\ distributions_updates o u n d ps = Ok d'.
  Proof.
    induction ps as [|p ps IH]; intros s d es s' d' es' H; cbn [process_particles_distributions process_particles distributions_updates] in *.
    - injection H as <- <- <-. auto.
    - apply bind_ok in H. destruct H as (s1 & -> & H). apply bind_ok in H. destruct H as (d1 & -> & H). cbn [bind]. eapply IH; exact H.
  Qed.
  Lemma ppd_make (o : Options F) u n ps : forall s d es s' d' es',
    process_particles o u s es ps = Ok (s', es') -> distributions_updates o u n d ps = Ok d' ->
    process_particles_distributions o u n s d es ps = Ok (s', d', es').
  Proof.
    induction ps as [|p ps IH]; intros s d es s' d' es' H Hd; cbn [process_particles_distributions process_particles distributions_updates] in *.
    - injection H as <- <-. injection Hd as <-. reflexivity.
    - apply bind_ok in H. destruct H as (s1 & -> & H). apply bind_ok in Hd. destruct Hd as (d1 & -> & Hd). cbn [bind]. eapply IH; eassumption.
  Qed.
  Lemma updates_app (o : Options F) u n ps ps' : forall d, distributions_updates o u n d (ps ++ ps')%list =
    (let! d := distributions_updates o u n d ps in distributions_updates o u n d ps').
  Proof. induction ps as [|p ps IH]; intros d; cbn [distributions_updates app]; [reflexivity|]. destruct (distributions_update o u n d p); cbn [bind]; auto. Qed.
  Lemma cld_inv run (o : Options F) u n cs : forall s d s' d' es,
    chunk_loop_distributions run o u n s d cs = Ok (s', d', es) ->
    exists outs, Forall2 (fun c out => run c = Ok out) cs outs /\ chunk_loop run o u s cs = Ok (s', es) /\
      distributions_updates o u n d (List.concat outs) = Ok d'.
  Proof.
    induction cs as [|c cs IH]; intros s d s' d' es H; cbn [chunk_loop_distributions chunk_loop] in *.
    - injection H as <- <- <-. exists []. repeat split; constructor.
    - apply bind_ok in H. destruct H as (out & Ho & H). apply bind_ok in H. destruct H as (((s1 & d1) & e1) & H1 & H).
      apply bind_ok in H. destruct H as (((s2 & d2) & r) & H2 & H). injection H as <- <- <-.
      apply ppd_inv in H1. destruct H1 as (H1 & U1). apply IH in H2. destruct H2 as (outs & Hr & H2 & U2).
      exists (out :: outs). split; [constructor; auto|]. rewrite Ho. cbn [bind]. unfold process_chunk. rewrite H1. cbn [bind]. rewrite H2. cbn [bind].
      split; [reflexivity|]. cbn [List.concat]. rewrite updates_app, U1. exact U2.
  Qed.
  Lemma cld_make run (o : Options F) u n cs : forall s s' es, chunk_loop run o u s cs = Ok (s', es) ->
    exists outs, Forall2 (fun c out => run c = Ok out) cs outs /\ forall d d', distributions_updates o u n d (List.concat outs) = Ok d' ->
      chunk_loop_distributions run o u n s d cs = Ok (s', d', es).
  Proof.
    induction cs as [|c cs IH]; intros s s' es H; cbn [chunk_loop_distributions chunk_loop] in *.
    - injection H as <- <-. exists []. split; [constructor|]. intros d d' H. injection H as <-. reflexivity.
    - apply bind_ok in H. destruct H as (out & Ho & H). apply bind_ok in H. destruct H as ((s1 & e1) & H1 & H).
      apply bind_ok in H. destruct H as ((s2 & r) & H2 & H). injection H as <- <-.
      unfold process_chunk in H1. apply bind_ok in H1. destruct H1 as ((s3 & e3) & H1 & H3). injection H3 as <- <-.
      apply IH in H2. destruct H2 as (outs & Hr & H2). exists (out :: outs). split; [constructor; auto|].
      intros d d' Hu. cbn [List.concat] in Hu. rewrite updates_app in Hu. apply bind_ok in Hu. destruct Hu as (d1 & U1 & U2).
      rewrite Ho. cbn [bind]. rewrite (ppd_make _ _ _ _ _ _ _ _ _ _ H1 U1). cbn [bind]. rewrite (H2 _ _ U2). reflexivity.
  Qed.
  Lemma pld_inv run axes (o : Options F) u ions s d es : physics_loop_distributions run axes o u ions = Ok (s, d, es) ->
    physics_loop run o u ions = Ok (s, es) /\
    exists cs outs, List.concat cs = ions /\ 0 < List.length ions /\ Forall2 (fun c out => run c = Ok out) cs outs /\
      distributions_updates o u (List.length ions) (distributions_new axes) (List.concat outs) = Ok d /\
      es = map (chunk_events o u) outs.
  Proof.
    unfold physics_loop_distributions, physics_loop. destruct (o_num_chunks o) as [|k] eqn:E; [discriminate|]. rewrite <- E. intros H.
    apply bind_ok in H. destruct H as (x & Hx & H). cbv zeta. rewrite Hx. cbn [bind].
    apply rassert_ok in Hx. apply Nat.ltb_lt in Hx.
    assert (0 < List.length ions) by (destruct (List.length ions); [cbn in Hx; rewrite Nat.div_0_l in Hx; lia|lia]).
    apply cld_inv in H. destruct H as (outs & H1 & H2 & H3). split; [exact H2|].
    exists (chunks (List.length ions / o_num_chunks o) ions), outs. split; [eapply cut_concat; apply chunks_cut; auto|]. do 3 (split; [assumption|]).
    apply chunk_loop_inv in H2. destruct H2 as (outs' & H2 & _ & ->). f_equal. clear -H1 H2. revert outs' H2.
    induction H1 as [|c out cs outs Hc H1 IH]; intros outs' H2; inversion H2; subst; [reflexivity|]. f_equal; [congruence|apply IH; assumption].
  Qed.
  Lemma rows_count o u f (t : Particle F -> bool) g outs : (forall p, rows_of f (output_lists o u p) = if t p then [g p] else []) ->
    List.length (rows_of f (List.concat (map (chunk_events o u) outs))) = count t (List.concat outs).
  Proof. intros Hg. rewrite rows_run. erewrite flat_map_ext by (intros p; apply Hg). rewrite flat_map_filter, map_length. reflexivity. Qed.

  (** *** entries added up *)
  Lemma increment_sum (v : list nat) : forall i w, increment v i = Ok w -> total1 w = S (total1 v).
  Proof.
    unfold total1. induction v as [|n v IH]; intros i w H; cbn [increment] in H; [destruct i; discriminate|]. destruct i as [|i].
    - injection H as <-. reflexivity.
    - apply bind_ok in H. destruct H as (w' & H & E). injection E as <-. apply IH in H. change (n + list_sum w' = S (n + list_sum v)). lia.
  Qed.
  Lemma increment2_sum (v : list (list nat)) : forall i j w, increment2 v i j = Ok w -> total2 w = S (total2 v).
  Proof.
    unfold total2. induction v as [|r v IH]; intros i j w H; cbn [increment2] in H; [destruct i; discriminate|]. destruct i as [|i].
    - apply bind_ok in H. destruct H as (w' & H & E). injection E as <-. apply increment_sum in H. unfold total1 in H. change (list_sum w' + list_sum (map list_sum v) = S (list_sum r + list_sum (map list_sum v))). lia.
    - apply bind_ok in H. destruct H as (w' & H & E). injection E as <-. apply IH in H. change (list_sum r + list_sum (map list_sum w') = S (list_sum r + list_sum (map list_sum v))). lia.
  Qed.
  Lemma count_in_sum v i n w : count_in v i n = Ok w -> total1 w <= total1 v + 1.
  Proof. unfold count_in. destruct (in_bins i n); intros H; [apply increment_sum in H; lia|injection H as <-; lia]. Qed.
  Definition same_counts (a b : Distributions F) : Prop :=
    di_reflected_ead a = di_reflected_ead b /\ di_sputtered_ead a = di_sputtered_ead b /\
    di_implanted_x a = di_implanted_x b /\ di_implanted_y a = di_implanted_y b /\ di_implanted_z a = di_implanted_z b.
  Lemma add_losses_counts (u : OutputUnits F) n els : forall d d', add_losses u n d els = Ok d' -> same_counts d' d.
  Proof.
    induction els as [|el els IH]; intros d d' H; cbn [add_losses] in H; [injection H as <-; repeat split|].
    apply bind_ok in H. destruct H as (d1 & H1 & H). apply IH in H.
    assert (S1 : same_counts d1 d).
    { unfold add_loss in H1. cbv zeta in H1. apply bind_ok in H1. destruct H1 as ((r0 & dl) & _ & H1). apply bind_ok in H1. destruct H1 as (i & _ & H1).
      destruct (in_bins i _); [|injection H1 as <-; repeat split].
      apply bind_ok in H1. destruct H1 as (e & _ & H1). apply bind_ok in H1. destruct H1 as (e' & _ & H1). injection H1 as <-. repeat split. }
    destruct H as (A1 & A2 & A3 & A4 & A5), S1 as (B1 & B2 & B3 & B4 & B5). repeat split; congruence.
  Qed.
  Definition one (b : bool) : nat := if b then 1 else 0.
  Lemma update_counts (o : Options F) u n d p d' : distributions_update o u n d p = Ok d' ->
    total2 (di_reflected_ead d') <= total2 (di_reflected_ead d) + one (reflected p) /\
    total2 (di_sputtered_ead d') <= total2 (di_sputtered_ead d) + one (sputtered p) /\
    total1 (di_implanted_x d') <= total1 (di_implanted_x d) + one (deposited p) /\
    total1 (di_implanted_y d') <= total1 (di_implanted_y d) + one (deposited p) /\
    total1 (di_implanted_z d') <= total1 (di_implanted_z d) + one (deposited p).
  Proof.
    unfold distributions_update. destruct (energy_angle_from_particle p u) as (en & an). intros H.
    apply bind_ok in H. destruct H as (ei & _ & H). apply bind_ok in H. destruct H as (ai & _ & H). cbv zeta in H.
    apply bind_ok in H. destruct H as (rf & Hrf & H). apply bind_ok in H. destruct H as (sp & Hsp & H). apply bind_ok in H. destruct H as (((ix & iy) & iz) & Him & H).
    assert (E1 : total2 rf <= total2 (di_reflected_ead d) + one (reflected p)).
    { unfold reflected. destruct (p_incident p && p_left p); cbn [andb one] in *; [|injection Hrf as <-; lia].
      destruct (in_bins ei _ && in_bins ai _); [apply increment2_sum in Hrf; lia|injection Hrf as <-; lia]. }
    assert (E2 : total2 sp <= total2 (di_sputtered_ead d) + one (sputtered p)).
    { unfold sputtered. destruct (negb (p_incident p) && p_left p); cbn [andb one] in *; [|injection Hsp as <-; lia].
      destruct (in_bins ei _ && in_bins ai _); [apply increment2_sum in Hsp; lia|injection Hsp as <-; lia]. }
    assert (E3 : total1 ix <= total1 (di_implanted_x d) + one (deposited p) /\ total1 iy <= total1 (di_implanted_y d) + one (deposited p) /\
                 total1 iz <= total1 (di_implanted_z d) + one (deposited p)).
    { unfold deposited. destruct (p_incident p && p_stopped p); cbn [one]; [|injection Him as <- <- <-; lia].
      apply bind_ok in Him. destruct Him as (xi & _ & Him). apply bind_ok in Him. destruct Him as (yi & _ & Him). apply bind_ok in Him. destruct Him as (zi & _ & Him).
      apply bind_ok in Him. destruct Him as (a & Ha & Him). apply bind_ok in Him. destruct Him as (b & Hb & Him). apply bind_ok in Him. destruct Him as (c & Hc & Him).
      injection Him as <- <- <-. apply count_in_sum in Ha, Hb, Hc. auto. }
    destruct (_ && p_incident p); [apply add_losses_counts in H|injection H as <-; cbn; tauto].
    destruct H as (A1 & A2 & A3 & A4 & A5). rewrite A1, A2, A3, A4, A5. cbn. tauto.
  Qed.
  Lemma updates_counts (o : Options F) u n ps : forall d d', distributions_updates o u n d ps = Ok d' ->
    total2 (di_reflected_ead d') <= total2 (di_reflected_ead d) + count reflected ps /\
    total2 (di_sputtered_ead d') <= total2 (di_sputtered_ead d) + count sputtered ps /\
    total1 (di_implanted_x d') <= total1 (di_implanted_x d) + count deposited ps /\
    total1 (di_implanted_y d') <= total1 (di_implanted_y d) + count deposited ps /\
    total1 (di_implanted_z d') <= total1 (di_implanted_z d) + count deposited ps.
  Proof.
    induction ps as [|p ps IH]; intros d d' H; cbn [distributions_updates] in H; [injection H as <-; lia|].
    apply bind_ok in H. destruct H as (d1 & H1 & H). apply update_counts in H1. apply IH in H.
    assert (C : forall t : Particle F -> bool, count t (p :: ps) = one (t p) + count t ps) by (intros t; unfold count; cbn [filter]; destruct (t p); reflexivity).
    rewrite !C. lia.
  Qed.
  Lemma total_new (axes : DistOptions F) : total2 (di_reflected_ead (distributions_new axes)) = 0 /\ total2 (di_sputtered_ead (distributions_new axes)) = 0 /\
    total1 (di_implanted_x (distributions_new axes)) = 0 /\ total1 (di_implanted_y (distributions_new axes)) = 0 /\ total1 (di_implanted_z (distributions_new axes)) = 0.
  Proof.
    assert (A : forall n, list_sum (repeat 0 n) = 0) by (induction n as [|n IH]; [reflexivity|exact IH]).
    assert (B : forall n m, list_sum (map list_sum (repeat (repeat 0 m) n)) = 0).
    { induction n as [|n IH]; intros m; [reflexivity|]. cbn [repeat map]. change (list_sum (repeat 0 m) + list_sum (map list_sum (repeat (repeat 0 m) n)) = 0). rewrite A, IH. reflexivity. }
    cbn [distributions_new di_reflected_ead di_sputtered_ead di_implanted_x di_implanted_y di_implanted_z]. unfold total1, total2.
    repeat split; auto.
  Qed.
End Lemmas.

(** ** C127 *)
(** The axes are read from the document as they are written in it, in any order among other keys. *)
Theorem C127_axes_read_as_written :
  forall {F} {NF : Num F} (l : list (string * Toml F)) name o d, options_written l name o -> axes_written l d ->
    read_options_distributions (TTable l) = Ok (name, o, d).
Proof.
  intros F NF l name o d Ho Hd. unfold read_options_distributions. rewrite (options_read _ _ _ Ho). cbn [bind].
  destruct Ho as (Hk & _). destruct Hd as (A1 & A2 & A3 & A4 & A5 & A6 & A7 & A8 & A9 & A10 & A11 & A12 & A13 & A14 & A15).
  unfold read_axes.
  rewrite (field_given de_f64 l _ _ _ Hk A1 eq_refl), (field_given de_f64 l _ _ _ Hk A2 eq_refl), (field_given de_usize l _ _ _ Hk A3 (rt_nat _)). cbn [bind].
  rewrite (field_given de_f64 l _ _ _ Hk A4 eq_refl), (field_given de_f64 l _ _ _ Hk A5 eq_refl), (field_given de_usize l _ _ _ Hk A6 (rt_nat _)). cbn [bind].
  rewrite (field_given de_f64 l _ _ _ Hk A7 eq_refl), (field_given de_f64 l _ _ _ Hk A10 eq_refl), (field_given de_f64 l _ _ _ Hk A13 eq_refl). cbn [bind].
  rewrite (field_given de_f64 l _ _ _ Hk A8 eq_refl), (field_given de_f64 l _ _ _ Hk A11 eq_refl), (field_given de_f64 l _ _ _ Hk A14 eq_refl). cbn [bind].
  rewrite (field_given de_usize l _ _ _ Hk A9 (rt_nat _)), (field_given de_usize l _ _ _ Hk A12 (rt_nat _)), (field_given de_usize l _ _ _ Hk A15 (rt_nat _)). cbn [bind].
  destruct d; reflexivity.
Qed.
Print Assumptions C127_axes_read_as_written.

(** An options section without one of the fifteen keys is rejected by this build, whatever the plain build makes of it. *)
Theorem C127_axes_required :
  forall {F} {NF : Num F} (l : list (string * Toml F)) k result, In k axis_keys -> omitted l k ->
    read_options_distributions (TTable l) <> Ok result.
Proof.
  intros F NF l k result Hk Ho H. unfold read_options_distributions in H. apply bind_ok in H. destruct H as ((name & o) & _ & H).
  apply bind_ok in H. destruct H as (d & H & _). unfold read_axes in H.
  assert (G : forall A (dd : Toml F -> Res A) key a, field key dd (TTable l) = Ok a -> k <> key).
  { intros A dd key a E ->. rewrite (field_omitted _ _ _ Ho) in E. discriminate. }
  repeat (apply bind_ok in H; let a := fresh "a" in let E := fresh "E" in destruct H as (a & E & H); apply G in E).
  unfold axis_keys in Hk. cbn [In] in Hk. intuition congruence.
Qed.
Print Assumptions C127_axes_required.

(** Summary and list files are those of the plain build; the histograms are those of the particles the
    chunks returned, in order, each counted once. *)
Theorem C127_same_lists_and_summary :
  forall {F} {NF : Num F} run axes (o : Options F) u ions s d es,
    physics_loop_distributions run axes o u ions = Ok (s, d, es) ->
    physics_loop run o u ions = Ok (s, es) /\
    exists cs outs, List.concat cs = ions /\ Forall2 (fun c out => run c = Ok out) cs outs /\
      distributions_updates o u (List.length ions) (distributions_new axes) (List.concat outs) = Ok d.
Proof.
  intros F NF run axes o u ions s d es H. apply pld_inv in H. destruct H as (H & cs & outs & A & _ & B & C & _). split; [exact H|]. exists cs, outs. auto.
Qed.
Print Assumptions C127_same_lists_and_summary.

(** In any arithmetic, rounded or not, no histogram counts more particles than the list files have rows. *)
Theorem C127_counts :
  forall {F} {NF : Num F} run axes (o : Options F) u ions s d es,
    physics_loop_distributions run axes o u ions = Ok (s, d, es) ->
    total2 (di_reflected_ead d) <= List.length (rows_of Reflected (List.concat es)) /\
    total2 (di_sputtered_ead d) <= List.length (rows_of Sputtered (List.concat es)) /\
    total1 (di_implanted_x d) <= List.length (rows_of Deposited (List.concat es)) /\
    total1 (di_implanted_y d) <= List.length (rows_of Deposited (List.concat es)) /\
    total1 (di_implanted_z d) <= List.length (rows_of Deposited (List.concat es)).
Proof.
  intros F NF run axes o u ions s d es H. apply pld_inv in H. destruct H as (H & cs & outs & A & _ & B & C & ->).
  apply updates_counts in C. destruct (total_new axes) as (T1 & T2 & T3 & T4 & T5). rewrite T1, T2, T3, T4, T5 in C.
  rewrite (rows_count o u Reflected reflected _ outs (fun p => output_lists_rows o u p Reflected)),
    (rows_count o u Sputtered sputtered _ outs (fun p => output_lists_rows o u p Sputtered)),
    (rows_count o u Deposited deposited _ outs (fun p => output_lists_rows o u p Deposited)).
  exact C.
Qed.
Print Assumptions C127_counts.

(** ** C128 *)
(** With at least two bins on every axis the histograms never stop a run that the plain build completes. *)
Theorem C128_enough_bins_partial :
  forall {F} {NF : Num F} run (axes : DistOptions F) (o : Options F) u ions s es,
    2 <= d_energy_num axes -> 2 <= d_angle_num axes -> 2 <= d_x_num axes -> 2 <= d_y_num axes -> 2 <= d_z_num axes ->
    physics_loop run o u ions = Ok (s, es) -> exists d, physics_loop_distributions run axes o u ions = Ok (s, d, es).
Proof.
  intros F NF run axes o u ions s es H1 H2 H3 H4 H5 H. unfold physics_loop_distributions. unfold physics_loop in H.
  destruct (o_num_chunks o) as [|k]; [discriminate|]. cbv zeta in *. apply bind_ok in H. destruct H as (x & -> & H). cbn [bind].
  apply (cld_make _ _ _ (List.length ions)) in H. destruct H as (outs & _ & H).
  destruct (updates_safe axes o u (List.length ions) (List.concat outs) ltac:(repeat split; assumption) (distributions_new axes) (shape_new axes)) as (d & Hd & _).
  exists d. apply H. exact Hd.
Qed.
Print Assumptions C128_enough_bins_partial.

Lemma few_bins {F} {NF : Num F} (axes : DistOptions F) o u n p d : d_energy_num axes < 2 \/ d_angle_num axes < 2 ->
  distributions_update o u n (distributions_new axes) p <> Ok d.
Proof.
  intros Hb H. unfold distributions_update in H. destruct (energy_angle_from_particle p u) as (en & an).
  assert (A : forall (a b : F) k v z, k < 2 -> bin_floor (linspace a b k) v <> Ok z).
  { intros a b k v z Hk E. destruct k as [|[|k]]; [discriminate E|discriminate E|lia]. }
  apply bind_ok in H. destruct H as (ei & He & H). apply bind_ok in H. destruct H as (ai & Ha & _).
  cbn [distributions_new di_energies di_angles] in He, Ha. destruct Hb as [Hb|Hb]; [exact (A _ _ _ _ _ Hb He)|exact (A _ _ _ _ _ Hb Ha)].
Qed.
Lemma ions_return {F} {NF : Num F} build mat (o : Options F) fuel ions out :
  run_chunk_serial build mat o fuel ions = Ok out -> 0 < List.length ions -> 0 < List.length out.
Proof.
  unfold run_chunk_serial. intros H Hl. apply bind_ok in H. destruct H as (outs & H & E). injection E as <-. apply mapM_ok in H.
  destruct H as [|i o1 ions outs Hi _]; [cbn in Hl; lia|]. cbn [List.concat]. rewrite app_length.
  unfold run_ion in Hi. apply bind_ok in Hi. destruct Hi as (p & _ & Hi). apply bind_ok in Hi. destruct Hi as ((o2 & n') & Hi & E). injection E as <-.
  destruct (C02_ion_first_with_identity _ _ _ _ _ _ _ _ _ _ _ Hi) as (fate & recoils & -> & _). cbn [List.length]. lia.
Qed.
(** One bin - or none - of energy or of angle is accepted as an axis, and the run dies at the first particle:
    no run of this build finishes, whatever the target, the ions and the random numbers. *)
Theorem C128_one_bin_refuted :
  forall {F} {NF : Num F} k, k < 2 ->
    (exists (l : list (string * Toml F)) name o axes, read_options_distributions (TTable l) = Ok (name, o, axes) /\ d_energy_num axes = k) /\
    (forall (axes : DistOptions F) build mat o fuel u ions schedule result,
       d_energy_num axes = k \/ d_angle_num axes = k -> (forall chunk, split_leaves (schedule chunk) = chunk) ->
       physics_loop_distributions (fun chunk => run_chunk_parallel build mat o fuel (schedule chunk)) axes o u ions <> Ok result).
Proof.
  intros F NF k Hk. split.
  - exists [("name", TString "x"); ("energy_min", TInt 0); ("energy_max", TInt 100); ("energy_num", TInt (Z.of_nat k)); ("angle_min", TInt 0); ("angle_max", TInt 90);
      ("angle_num", TInt 90); ("x_min", TInt 0); ("y_min", TInt 0); ("z_min", TInt 0); ("x_max", TInt 1); ("y_max", TInt 1); ("z_max", TInt 1);
      ("x_num", TInt 10); ("y_num", TInt 10); ("z_num", TInt 10)].
    destruct k as [|[|k]]; [| |lia]; do 3 eexists; (split; [cbv [read_options_distributions]; reflexivity|reflexivity]).
  - intros axes build mat o fuel u ions schedule ((s & d) & es) Hb Hs H. apply pld_inv in H. destruct H as (_ & cs & outs & Hc & Hl & Hr & Hu & _).
    destruct (List.concat outs) as [|p ps] eqn:E.
    + subst ions. clear Hu. revert Hl E. induction Hr as [|c out cs outs H1 Hr IH]; cbn [List.concat]; intros Hl E; [cbn in Hl; lia|].
      apply app_eq_nil in E. destruct E as (E1 & E2). rewrite app_length in Hl. destruct (List.length c) as [|n] eqn:Ec; [apply IH; [exact Hl|exact E2]|].
      rewrite parallel_serial in H1. rewrite Hs in H1. apply ions_return in H1; [subst out; cbn in H1; lia|lia].
    + cbn [distributions_updates] in Hu. apply bind_ok in Hu. destruct Hu as (d1 & Hu & _). eapply few_bins; [|exact Hu]. destruct Hb as [Hb|Hb]; [left|right]; lia.
Qed.
Print Assumptions C128_one_bin_refuted.

(** ** Non-vacuity *)
Definition two_bins : DistOptions spec_float :=
  mkDistOptions (nZ 0) (nZ 1000) 2 (nZ 0) (nZ 90) 2 (nlit (-1) 12) (nlit 1 12) 3 (nlit (-1) 12) (nlit 1 12) 3 (nlit (-1) 12) (nlit 1 12) 3.
Definition toy_run_distributions :=
  physics_loop_distributions (run_chunk_serial None toy_material (run_options 2) 10) two_bins (run_options 2) run_units (some_ions 5).
(** A run of five ions in chunks of two finishes in both builds, and all five deposited ions are in the z histogram. *)
Example C127_applies : exists s d es, toy_run_distributions = Ok (s, d, es) /\
  List.length (rows_of Deposited (List.concat es)) = 5 /\ total1 (di_implanted_z d) = 5.
Proof. do 3 eexists. split; [vm_compute; reflexivity|]. split; vm_compute; reflexivity. Qed.
Example C128_applies : exists s es, physics_loop (run_chunk_serial None toy_material (run_options 2) 10) (run_options 2) run_units (some_ions 5) = Ok (s, es).
Proof. do 2 eexists. vm_compute. reflexivity. Qed.
Definition two_bins_section : list (string * Toml spec_float) := (toy_written_options ++
  [("energy_min", TFloat (nZ 0)); ("energy_max", TFloat (nZ 1000)); ("energy_num", TInt 2); ("angle_max", TFloat (nZ 90)); ("angle_min", TFloat (nZ 0));
   ("angle_num", TInt 2); ("x_min", TFloat (nlit (-1) 12)); ("x_max", TFloat (nlit 1 12)); ("x_num", TInt 3);
   ("y_min", TFloat (nlit (-1) 12)); ("y_max", TFloat (nlit 1 12)); ("y_num", TInt 3); ("z_num", TInt 3); ("z_min", TFloat (nlit (-1) 12)); ("z_max", TFloat (nlit 1 12))])%list.
Lemma absent_key {F} (l : list (string * Toml F)) k : existsb (String.eqb k) (map fst l) = false -> omitted l k.
Proof. intros H Hin. assert (E : existsb (String.eqb k) (map fst l) = true) by (apply existsb_exists; exists k; split; [exact Hin|apply String.eqb_refl]). congruence. Qed.
Example C127_axes_apply : options_written two_bins_section "x" toy_read_options /\ axes_written two_bins_section two_bins /\
  In "angle_num" axis_keys /\ omitted toy_written_options "angle_num".
Proof.
  split; [split; [change (NoDup (map fst two_bins_section)); replace (map fst two_bins_section) with (nodup string_dec (map fst two_bins_section)) by reflexivity; apply NoDup_nodup|]; split; [present|]; repeat split; first [left; present; fail|right; split; [apply absent_key; reflexivity|reflexivity]]|]. split; [repeat split; present|]. split; [cbn; auto 20|absent].
Qed.
