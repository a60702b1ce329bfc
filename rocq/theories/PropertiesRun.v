(** * PropertiesRun.v - C54..C60: whole runs, their summary, list files and histograms *)
From Coq Require Import ZArith List Bool Lia Reals Lra Floats.SpecFloat.
From Verif Require Import Num NumSF NumR ModelTypes ModelConsts ModelParticle ModelGeometry ModelMaterial ModelBca ModelOutput ModelPhysics
  ProofsBase ProofsBca ProofsInput Spec SpecRun ProofsRun ProofsHist Toy.
Import ListNotations.
Open Scope nat_scope.

(** a run of five ions in two chunks (sizes 2, 2 and 1) in binary64 *)
Definition run_options (chunks : nat) : Options spec_float := {|
  o_track_trajectories := true; o_track_recoils := true; o_track_recoil_trajectories := true;
  o_write_buffer_size := 8000; o_weak_collision_order := 0; o_suppress_deep_recoils := false;
  o_high_energy_free_flight_paths := false; o_electronic_stopping_mode := LOW_ENERGY_NONLOCAL;
  o_mean_free_path_model := LIQUID;
  o_interaction_potential := o_interaction_potential toy_options; o_scattering_integral := o_scattering_integral toy_options;
  o_root_finder := o_root_finder toy_options; o_num_threads := 4; o_num_chunks := chunks; o_use_hdf5 := false;
  o_track_displacements := true; o_track_energy_losses := true |}.
Definition run_units : OutputUnits spec_float := mkOU (nlit 1 (-10)) cEV cAMU.
Definition some_ions (n : nat) : list (Ion spec_float) := repeat (mkIon toy_input toy_rng) n.
Definition toy_run (chunks ions : nat) :=
  physics_loop (run_chunk_serial None toy_material (run_options chunks) 10) (run_options chunks) run_units (some_ions ions).
Definition finishes {A} (r : Res A) : Prop := exists a, r = Ok a.

(** ** C54 *)
Lemma loop_inv {F} {NF : Num F} run (options : Options F) units ions s es :
  physics_loop run options units ions = Ok (s, es) ->
  exists cs outs, cut (length ions / o_num_chunks options) ions cs /\
    Forall2 (fun c out => run c = Ok out) cs outs /\ sps_updates sps_new (concat outs) = Ok s /\ es = map (chunk_events options units) outs.
Proof.
  unfold physics_loop. destruct (o_num_chunks options) as [|k] eqn:E; [discriminate|]. rewrite <- E. intros H.
  apply bind_ok in H. destruct H as (u & Hu & H). apply rassert_ok in Hu. apply Nat.ltb_lt in Hu.
  assert (0 < length ions) by (destruct (length ions); [cbn in Hu; rewrite Nat.div_0_l in Hu; lia|lia]).
  apply chunk_loop_inv in H. destruct H as (outs & H1 & H2 & H3). exists (chunks (length ions / o_num_chunks options) ions), outs.
  split; [apply chunks_cut; auto|auto].
Qed.
(** The chunks a completed run has processed, in order, and what it did with the
    result of each: nothing is skipped, repeated or reordered. *)
Theorem C54_chunking :
  forall {F} {NF : Num F} run (options : Options F) units ions s es,
    physics_loop run options units ions = Ok (s, es) ->
    exists cs outs, concat cs = ions /\ cut (length ions / o_num_chunks options) ions cs /\
      Forall (fun c => 0 < length c <= length ions / o_num_chunks options) cs /\
      Forall2 (fun c out => run c = Ok out) cs outs /\
      es = map (fun out => flat_map (output_lists options units) out ++ output_list_flush) outs.
Proof.
  intros F NF run options units ions s es H. apply loop_inv in H. destruct H as (cs & outs & H1 & H2 & _ & H3).
  exists cs, outs. split; [eapply cut_concat; eauto|]. split; [auto|]. split; [eapply cut_pieces; eauto|]. auto.
Qed.
Print Assumptions C54_chunking.
(** With the serial loop: every ion is simulated exactly once, in order. *)
Theorem C54_every_ion_once :
  forall {F} {NF : Num F} build mat (options : Options F) fuel units ions s es,
    physics_loop (run_chunk_serial build mat options fuel) options units ions = Ok (s, es) ->
    exists per_ion, Forall2 (fun ion out => exists p n', from_input (ion_input ion) options = Ok p /\
                       single_ion_bca build mat options fuel p (ion_rng ion) 0 = Ok (out, n')) ions per_ion /\
      forall f, rows_of f (concat es) = flat_map (fun p => rows_of f (output_lists options units p)) (concat per_ion).
Proof.
  intros F NF build mat options fuel units ions s es H. apply loop_inv in H. destruct H as (cs & outs & H1 & H2 & _ & H3).
  pose proof (cut_concat _ _ _ H1) as Hc.
  assert (Hp : exists per_ion, Forall2 (fun ion out => run_ion build mat options fuel ion = Ok out) (concat cs) per_ion /\ concat per_ion = concat outs).
  { clear -H2. induction H2 as [|c out cs outs Hr H2 (pi & P1 & P2)]; [exists []; split; constructor|].
    unfold run_chunk_serial in Hr. apply bind_ok in Hr. destruct Hr as (o & Ho & Hr). injection Hr as <-. apply mapM_ok in Ho.
    exists (o ++ pi). cbn [concat]. split; [apply Forall2_app; auto|]. rewrite concat_app, P2. reflexivity. }
  destruct Hp as (pi & P1 & P2). rewrite Hc in P1. exists pi. split.
  - clear -P1. induction P1; constructor; auto. unfold run_ion in H. apply bind_ok in H. destruct H as (p & Hp & H).
    apply bind_ok in H. destruct H as ((out & n') & Ho & H). injection H as <-. eauto.
  - intros f. rewrite H3, rows_run, P2. reflexivity.
Qed.
Print Assumptions C54_every_ion_once.
Theorem C54_rejects :
  forall {F} {NF : Num F} run (options : Options F) units ions, 0 < o_num_chunks options ->
    (forall c, 0 < length c -> finishes (run c)) ->
    (length ions < o_num_chunks options -> physics_loop run options units ions = Panic AssertFail) /\
    (o_num_chunks options <= length ions -> finishes (physics_loop run options units ions)).
Proof.
  intros F NF run options units ions Hn Hrun. unfold physics_loop. destruct (o_num_chunks options) as [|k] eqn:E; [lia|]. rewrite <- E in *. split; intros H.
  - rewrite Nat.div_small by auto. reflexivity.
  - assert (Hp : 0 < length ions / o_num_chunks options) by (apply Nat.div_str_pos; lia).
    rewrite (proj2 (Nat.ltb_lt _ _) Hp). cbn [rassert bind].
    pose proof (chunks_cut _ ions Hp ltac:(lia)) as Hcut. apply cut_pieces in Hcut.
    assert (exists outs, Forall2 (fun c out => run c = Ok out) (chunks (length ions / o_num_chunks options) ions) outs) as (outs & Ho).
    { induction Hcut as [|c cs Hc Hcut (outs & IH)]; [exists []; constructor|]. destruct (Hrun c) as (out & Hout); [lia|]. exists (out :: outs). constructor; auto. }
    destruct (chunk_loop_run run options units _ sps_new outs aligned_new Ho) as (s' & -> & _). eexists. reflexivity.
Qed.
Print Assumptions C54_rejects.
Example C54_applies : finishes (toy_run 2 5) /\ physics_loop (fun _ => Ok []) (run_options 6) run_units (some_ions 5) = Panic AssertFail.
Proof. split; [eexists; vm_compute; reflexivity|reflexivity]. Qed.

(** ** C55 *)
Theorem C55_number_of_chunks_partial :
  forall {F} {NF : Num F} run (options : Options F) units ions s es,
    physics_loop run options units ions = Ok (s, es) ->
    let size := length ions / o_num_chunks options in
    length es = (length ions + (size - 1)) / size /\ o_num_chunks options <= length es /\
    (length ions mod o_num_chunks options = 0 -> length es = o_num_chunks options).
Proof.
  intros F NF run options units ions s es H size. pose proof H as H0. apply loop_inv in H. destruct H as (cs & outs & H1 & H2 & _ & ->).
  unfold physics_loop in H0. destruct (o_num_chunks options) as [|k] eqn:E; [discriminate|]. set (n := S k) in *. fold size in H0, H1.
  apply bind_ok in H0. destruct H0 as (u & Hu & _). apply rassert_ok in Hu. apply Nat.ltb_lt in Hu.
  rewrite map_length, <- (Forall2_len _ _ _ H2), (cut_number _ _ _ H1). split; [reflexivity|].
  pose proof (Nat.div_mod_eq (length ions) n) as Hd. fold size in Hd.
  split.
  - apply Nat.div_le_lower_bound; lia.
  - intros Hm. assert (length ions = n * size) as -> by lia. symmetry. apply Nat.div_unique with (r := size - 1); lia.
Qed.
Print Assumptions C55_number_of_chunks_partial.
(** five ions, num_chunks = 3: five chunks of one ion are processed *)
Theorem C55_number_of_chunks_refuted :
  exists run (options : Options spec_float) units ions s es,
    physics_loop run options units ions = Ok (s, es) /\ o_num_chunks options = 3 /\ length ions = 5 /\ length es = 5.
Proof.
  exists (run_chunk_serial None toy_material (run_options 3) 10), (run_options 3), run_units, (some_ions 5).
  do 2 eexists. split; [vm_compute; reflexivity|]. repeat split.
Qed.
Print Assumptions C55_number_of_chunks_refuted.
Example C55_applies : finishes (toy_run 2 4).
Proof. eexists. vm_compute. reflexivity. Qed.

(** ** C56 *)
(** The scheduler may split each chunk in any way: the whole result of the run
    (summary, rows, order of rows, or the panic) is that of the serial loop. *)
Theorem C56_parallel_serial :
  forall {F} {NF : Num F} build mat (options : Options F) fuel units ions (schedule : list (Ion F) -> Split (Ion F)),
    (forall chunk, split_leaves (schedule chunk) = chunk) ->
    physics_loop (fun chunk => run_chunk_parallel build mat options fuel (schedule chunk)) options units ions
    = physics_loop (run_chunk_serial build mat options fuel) options units ions.
Proof.
  intros F NF build mat options fuel units ions schedule Hs. unfold physics_loop. destruct (o_num_chunks options); [reflexivity|].
  destruct (rassert _); cbn [bind]; auto. apply chunk_loop_ext. intros c _. rewrite parallel_serial, Hs. reflexivity.
Qed.
Print Assumptions C56_parallel_serial.
Theorem C56_one_chunk :
  forall {F} {NF : Num F} build mat (options : Options F) fuel (tasks : Split (Ion F)),
    run_chunk_parallel build mat options fuel tasks = run_chunk_serial build mat options fuel (split_leaves tasks).
Proof. intros F NF. exact parallel_serial. Qed.
Print Assumptions C56_one_chunk.
Definition halves {A} (l : list A) : Split A :=
  Fork (Leaf (firstn (length l / 2) l)) (Fork (Leaf (skipn (length l / 2) l)) (Leaf [])).
Example C56_applies : (forall chunk : list (Ion spec_float), split_leaves (halves chunk) = chunk) /\ finishes (toy_run 2 5).
Proof. split; [intros c; cbn; rewrite app_nil_r; apply firstn_skipn|eexists; vm_compute; reflexivity]. Qed.

(** ** C57 *)
Theorem C57_summary :
  forall {F} {NF : Num F} run (options : Options F) units ions s es,
    physics_loop run options units ions = Ok (s, es) ->
    exists cs outs, concat cs = ions /\ Forall2 (fun c out => run c = Ok out) cs outs /\
      forall ps, ps = concat outs -> masses_comparable ps ->
      let masses := first_seen neqb (map (@p_m F) ps) in
      NoDup masses /\ (forall m, In m masses <-> exists p, In p ps /\ p_m p = m) /\
      sps_print s units = map (fun m => (ndiv m (ou_mass_unit units),
          count (fun p => of_mass m p && p_incident p && p_left p) ps,
          count (fun p => of_mass m p && negb (p_incident p) && p_left p) ps,
          count (fun p => of_mass m p && p_incident p && negb (p_left p)) ps)) masses.
Proof.
  intros F NF run options units ions s es H. apply loop_inv in H. destruct H as (cs & outs & H1 & H2 & H3 & _).
  exists cs, outs. split; [eapply cut_concat; eauto|]. split; auto. intros ps -> Hc masses.
  assert (D : decides neqb (map (@p_m F) (concat outs))).
  { intros x y Hx Hy. apply in_map_iff in Hx, Hy. destruct Hx as (p & <- & Hp), Hy as (q & <- & Hq). apply Hc; auto. }
  split; [apply first_seen_nodup; auto|]. split.
  - intros m. split.
    + intros Hm. apply first_seen_in, in_map_iff in Hm. destruct Hm as (p & Hm & Hp). eauto.
    + intros (p & Hp & <-). apply first_seen_all; auto. apply in_map; auto.
  - pose proof (describes_updates (concat outs) sps_new [] s describes_new Hc H3) as Hd. cbn [app] in Hd.
    rewrite (sps_print_describes _ _ units Hd). apply map_ext. intros m. unfold count, reflected, sputtered, not_reflected.
    f_equal; [f_equal; [f_equal|]|]; f_equal; apply filter_ext; intros p; apply andb_assoc.
Qed.
Print Assumptions C57_summary.
Definition toy_chunk : list (Particle spec_float) :=
  match run_chunk_serial None toy_material (run_options 2) 10 (some_ions 2) with Ok l => l | _ => [] end.
Example C57_applies : finishes (toy_run 2 5) /\ 4 <= length toy_chunk /\ masses_comparable toy_chunk.
Proof.
  split; [eexists; vm_compute; reflexivity|]. split; [apply Nat.leb_le; vm_compute; reflexivity|].
  assert (E : forall p, In p toy_chunk -> p_m p = nmul (nZ 4) cAMU).
  { assert (Em : map (@p_m spec_float) toy_chunk = repeat (nmul (nZ 4) cAMU) (length toy_chunk)) by (vm_compute; reflexivity).
    intros p Hp. apply (in_map (@p_m spec_float)) in Hp. rewrite Em in Hp. apply repeat_spec in Hp. exact Hp. }
  intros p q Hp Hq. rewrite (E p Hp), (E q Hq). split; intros _; [reflexivity|vm_compute; reflexivity].
Qed.

(** ** C58 *)
(** The complete contents of every list file after a run. *)
Theorem C58_list_files :
  forall {F} {NF : Num F} run (options : Options F) units ions s es,
    physics_loop run options units ions = Ok (s, es) ->
    exists cs outs, concat cs = ions /\ Forall2 (fun c out => run c = Ok out) cs outs /\
      forall ps, ps = concat outs ->
      rows_of Reflected (concat es) = map (reflected_row units) (filter reflected ps) /\
      rows_of Sputtered (concat es) = map (sputtered_row units) (filter sputtered ps) /\
      rows_of Deposited (concat es) = map (deposited_row units) (filter deposited ps) /\
      rows_of Displacements (concat es) = (if o_track_displacements options then map (displaced_row units) (filter displaced ps) else []) /\
      rows_of Trajectories (concat es) = flat_map (trajectory_rows units) (filter (@p_track_trajectories F) ps) /\
      rows_of TrajectoryData (concat es) = map (fun p => [CN (length (trajectory_rows units p))]) (filter (@p_track_trajectories F) ps) /\
      rows_of EnergyLosses (concat es) = (if o_track_energy_losses options then flat_map (energy_loss_rows units) (filter (@p_incident F) ps) else []).
Proof.
  intros F NF run options units ions s es H. apply loop_inv in H. destruct H as (cs & outs & H1 & H2 & _ & ->).
  exists cs, outs. split; [eapply cut_concat; eauto|]. split; auto. intros ps ->. set (ps := concat outs).
  assert (E : forall f g, (forall p : Particle F, rows_of f (output_lists options units p) = g p) -> rows_of f (concat (map (chunk_events options units) outs)) = flat_map g ps).
  { intros f g Hg. rewrite rows_run. apply flat_map_ext. exact Hg. }
  repeat split.
  - erewrite E by (intros p; apply (output_lists_rows _ _ p Reflected)). apply flat_map_filter.
  - erewrite E by (intros p; apply (output_lists_rows _ _ p Sputtered)). apply flat_map_filter.
  - erewrite E by (intros p; apply (output_lists_rows _ _ p Deposited)). apply flat_map_filter.
  - erewrite E by (intros p; apply (output_lists_rows _ _ p Displacements)). destruct (o_track_displacements options).
    + rewrite <- flat_map_filter. apply flat_map_ext. intros p. rewrite andb_true_r. reflexivity.
    + clear. generalize ps as l. induction l as [|p l IH]; [reflexivity|]. cbn [flat_map]. rewrite andb_false_r. exact IH.
  - erewrite E by (intros p; apply (output_lists_rows _ _ p Trajectories)). apply flat_map_filter_list.
  - erewrite E by (intros p; apply (output_lists_rows _ _ p TrajectoryData)). rewrite <- flat_map_filter. apply flat_map_ext. intros p. unfold trajectory_rows. rewrite map_length. reflexivity.
  - erewrite E by (intros p; apply (output_lists_rows _ _ p EnergyLosses)). destruct (o_track_energy_losses options).
    + rewrite <- flat_map_filter_list. apply flat_map_ext. intros p. rewrite andb_true_r. reflexivity.
    + clear. generalize ps as l. induction l as [|p l IH]; [reflexivity|]. cbn [flat_map]. rewrite andb_false_r. exact IH.
Qed.
Print Assumptions C58_list_files.
(** The numbers of rows are the totals of the summary. *)
Theorem C58_totals :
  forall {F} {NF : Num F} build mat (options : Options F) fuel units ions s es,
    physics_loop (run_chunk_serial build mat options fuel) options units ions = Ok (s, es) ->
    length (rows_of Reflected (concat es)) = list_sum (map (fun row => snd (fst (fst row))) (sps_print s units)) /\
    length (rows_of Sputtered (concat es)) = list_sum (map (fun row => snd (fst row)) (sps_print s units)) /\
    length (rows_of Deposited (concat es)) = list_sum (map snd (sps_print s units)).
Proof.
  intros F NF build mat options fuel units ions s es H. pose proof H as H0. apply loop_inv in H. destruct H as (cs & outs & _ & H2 & H3 & ->).
  set (ps := concat outs) in *.
  assert (Hout : Forall (fun p => came_to_rest mat p \/ escaped mat p) ps).
  { unfold ps. clear -H2. induction H2 as [|c out cs outs Hr H2 IH]; cbn; [constructor|]. apply Forall_app. split; auto.
    unfold run_chunk_serial in Hr. apply bind_ok in Hr. destruct Hr as (o & Ho & Hr). injection Hr as <-. apply mapM_ok in Ho. clear -Ho.
    induction Ho as [|ion out l o Hi Ho IH]; cbn; [constructor|]. apply Forall_app. split; auto.
    unfold run_ion in Hi. apply bind_ok in Hi. destruct Hi as (p & _ & Hi). apply bind_ok in Hi. destruct Hi as ((o1 & n') & Hi & E). injection E as <-.
    eapply run_finished; eauto. }
  assert (Hdep : count deposited ps = count not_reflected ps).
  { unfold count. clear -Hout. induction Hout as [|p l Hp Hl IH]; [reflexivity|]. cbn. unfold deposited, not_reflected.
    destruct Hp as [(E1 & E2 & _)|(E1 & E2 & _)]; rewrite E1, E2; cbn [negb]; destruct (p_incident p); cbn; unfold deposited, not_reflected in IH; rewrite IH; reflexivity. }
  assert (Hlen : forall f (t : Particle F -> bool) (g : Particle F -> Row F), (forall p, rows_of f (output_lists options units p) = if t p then [g p] else []) ->
     length (rows_of f (concat (map (chunk_events options units) outs))) = count t ps).
  { intros f t g Hg. rewrite rows_run. erewrite flat_map_ext by (intros p; apply Hg). rewrite flat_map_filter, map_length. reflexivity. }
  pose proof (Hlen Reflected reflected (reflected_row units) (fun p : Particle F => output_lists_rows options units p Reflected)) as L1.
  pose proof (Hlen Sputtered sputtered (sputtered_row units) (fun p : Particle F => output_lists_rows options units p Sputtered)) as L2.
  pose proof (Hlen Deposited deposited (deposited_row units) (fun p : Particle F => output_lists_rows options units p Deposited)) as L3.
  destruct (sps_updates_total ps sps_new aligned_new) as (s' & Hs' & Ha). rewrite H3 in Hs'. injection Hs' as <-.
  destruct (sps_updates_total_counts ps _ _ H3) as (T1 & T2 & T3). cbn [total sps_new sp_reflected sp_sputtered sp_deposited fold_right plus] in T1, T2, T3.
  assert (Hpr : map (fun row : F * nat * nat * nat => snd (fst (fst row))) (sps_print s units) = sp_reflected s /\ map (fun row : F * nat * nat * nat => snd (fst row)) (sps_print s units) = sp_sputtered s /\ map snd (sps_print s units) = sp_deposited s).
  { destruct Ha as (A1 & A2 & A3). unfold sps_print, zip. rewrite !map_map. revert A1 A2 A3. generalize (sp_m s) (sp_sputtered s) (sp_reflected s) (sp_deposited s). clear.
    induction l as [|m l IH]; intros [|a la] [|b lb] [|c lc] A1 A2 A3; cbn in *; try discriminate; auto.
    destruct (IH la lb lc ltac:(lia) ltac:(lia) ltac:(lia)) as (I1 & I2 & I3). repeat split; f_equal; auto. }
  destruct Hpr as (P1 & P2 & P3). rewrite P1, P2, P3. unfold total in *. unfold list_sum.
  rewrite L1, L2, L3. rewrite Hdep. auto.
Qed.
Print Assumptions C58_totals.
Example C58_applies : exists s es, toy_run 2 5 = Ok (s, es) /\ length (rows_of Deposited (concat es)) = 5 /\
   5 <= length (rows_of EnergyLosses (concat es)) /\ 5 <= length (rows_of Displacements (concat es)).
Proof. do 2 eexists. split; [vm_compute; reflexivity|]. split; [vm_compute; reflexivity|]. split; vm_compute; lia. Qed.

(** ** C59 *)
(** [done]: the chunks finished before the crash; [later]: what the program did
    with its streams after them.  All rows of the finished chunks are on disk, no
    row is duplicated, and rows not on disk are in the buffer, for all files but
    energy_loss.output. *)
Theorem C59_completed_chunks_partial :
  forall {F} {NF : Num F} run (options : Options F) units ions s es done rest later st,
    physics_loop run options units ions = Ok (s, es) -> es = done ++ rest -> prefix later (concat rest) ->
    run_events open_output_lists (concat done ++ later) st ->
    forall f, f <> EnergyLosses ->
      prefix (rows_of f (concat done)) (on_disk (st f)) /\
      on_disk (st f) ++ in_buffer (st f) = rows_of f (concat done ++ later).
Proof.
  intros F NF run options units ions s es done rest later st H Hes _ Hrun f Hf. apply loop_inv in H. destruct H as (cs & outs & _ & _ & _ & E).
  rewrite E in Hes. apply map_eq_app in Hes. destruct Hes as (o1 & o2 & _ & <- & _).
  destruct (run_complete _ f _ _ Hrun) as (C & _). cbn [open_output_lists on_disk in_buffer app] in C. split; [|exact C].
  apply run_events_app in Hrun. destruct Hrun as (s1 & H1 & H2).
  destruct (chunks_on_disk options units f o1 Hf open_output_lists s1 eq_refl H1) as (D & _). cbn [open_output_lists on_disk app] in D.
  destruct (run_complete _ f _ _ H2) as (_ & P). rewrite D in P. exact P.
Qed.
Print Assumptions C59_completed_chunks_partial.
(** energy_loss.output is never flushed: a crash at the very end of a run, after
    all chunks are finished, can lose every row of it. *)
Theorem C59_energy_losses_refuted :
  exists s es st, toy_run 2 5 = Ok (s, es) /\ run_events open_output_lists (concat es) st /\
    rows_of EnergyLosses (concat es) <> [] /\ on_disk (st EnergyLosses) = [].
Proof.
  assert (H : exists s es, toy_run 2 5 = Ok (s, es) /\ rows_of EnergyLosses (concat es) <> [] /\ ~ In (Flush EnergyLosses) (concat es)).
  { do 2 eexists. split; [vm_compute; reflexivity|]. split; [vm_compute; discriminate|]. vm_compute. intuition discriminate. }
  destruct H as (s & es & H1 & H2 & H3). destruct (lazy_run (concat es) EnergyLosses H3 open_output_lists eq_refl) as (st & H4 & H5).
  exists s, es, st. auto.
Qed.
Print Assumptions C59_energy_losses_refuted.
Example C59_applies : exists s es, toy_run 2 5 = Ok (s, es) /\ rows_of Deposited (concat (firstn 1 es)) <> [].
Proof. do 2 eexists. split; [vm_compute; reflexivity|]. vm_compute. discriminate. Qed.

(** ** C60 *)
(** With at least two bins per axis no update is out of bounds, in any arithmetic. *)
Theorem C60_never_out_of_bounds :
  forall {F} {NF : Num F} (d : DistOptions F) options units n ps, enough_bins d ->
    finishes (distributions_updates options units n (distributions_new d) ps).
Proof. intros F NF d options units n ps He. destruct (updates_safe d options units n ps He _ (shape_new d)) as (di & E & _). exists di. exact E. Qed.
Print Assumptions C60_never_out_of_bounds.
(** In exact arithmetic energies and angles are counted in the bin that contains
    them; positions too, except that bin 0 also takes positions less than one
    bin width below the axis. *)
Theorem C60_histograms_partial :
  forall (d : DistOptions R) options units n ps (angle : Particle R -> R), axes_ok d ->
    (forall p, In p ps -> p_left p = true -> p_dir p <> mkV 0%R 0%R 0%R /\ emission_angle (p_dir p) (angle p)) ->
    exists di, distributions_updates options units n (distributions_new d) ps = Ok di /\
      let cell i j (p : Particle R) :=
        in_bin (d_energy_min d) (bin_width (d_energy_min d) (d_energy_max d) (d_energy_num d)) i (p_E p / ou_energy_unit units) &&
        in_bin (d_angle_min d) (bin_width (d_angle_min d) (d_angle_max d) (d_angle_num d)) j (angle p) in
      di_reflected_ead di = map (fun i => map (fun j => count (fun p => reflected p && cell i j p) ps) (seq 0 (d_angle_num d))) (seq 0 (d_energy_num d)) /\
      di_sputtered_ead di = map (fun i => map (fun j => count (fun p => sputtered p && cell i j p) ps) (seq 0 (d_angle_num d))) (seq 0 (d_energy_num d)) /\
      (forall coordinate lo hi num histogram,
         In (coordinate, lo, hi, num, histogram)
            [(@vx R, d_x_min d, d_x_max d, d_x_num d, di_implanted_x di);
             (@vy R, d_y_min d, d_y_max d, d_y_num d, di_implanted_y di);
             (@vz R, d_z_min d, d_z_max d, d_z_num d, di_implanted_z di)] ->
         histogram = map (fun i => count (fun p => deposited p &&
           in_bin_or_just_below lo (bin_width lo hi num) i (coordinate (p_pos p) / ou_length_unit units)) ps) (seq 0 num)) /\
      (forall loss histogram,
         In (loss, histogram) [(@el_Ee R, di_electronic_energy_loss_x di); (@el_En R, di_nuclear_energy_loss_x di)] ->
         let w := bin_width (d_x_min d) (d_x_max d) (d_x_num d) in
         let records := if o_track_energy_losses options then flat_map (@p_energies R) (filter (@p_incident R) ps) else [] in
         histogram = map (fun i => Rsum (map (fun el => loss el / ou_energy_unit units / INR n / w)
            (filter (fun el => in_bin_or_just_below (d_x_min d) w i (el_x el / ou_length_unit units)) records))) (seq 0 (d_x_num d)))%R.
Proof.
  intros d options units n ps angle Hd Hang.
  assert (H0 : accounts d units n (distributions_new d) [] (loss_records options [])).
  { replace (loss_records options []) with (@nil (EnergyLoss R)) by (unfold loss_records; destruct (o_track_energy_losses options); reflexivity). apply accounts_new. }
  destruct (updates_accounts d options units n Hd ps _ [] H0) as (di & E & [A1 A2 A3 A4 A5 A6 A7 A8 A9 A10 A11 A12]).
  cbn [app] in *. exists di. split; [exact E|]. cbv zeta.
  assert (Hcell : forall t : Particle R -> bool, (forall p, t p = true -> p_left p = true) -> forall i j,
    count (fun p => t p && in_cell d units i j p) ps =
    count (fun p => t p && (in_bin (d_energy_min d) (bin_width (d_energy_min d) (d_energy_max d) (d_energy_num d)) i (p_E p / ou_energy_unit units) &&
        in_bin (d_angle_min d) (bin_width (d_angle_min d) (d_angle_max d) (d_angle_num d)) j (angle p))) ps).
  { intros t Ht i j. unfold count. f_equal. apply filter_ext_in. intros p Hp. destruct (t p) eqn:Et; [|reflexivity]. cbn [andb].
    destruct (Hang p Hp (Ht p Et)) as (Hnz & Ha). unfold in_cell. rewrite (polar_unique _ _ _ Hnz (angle_polar p units Hnz) Ha). reflexivity. }
  split; [rewrite A6; apply map_ext; intros i; apply map_ext; intros j; apply Hcell; unfold reflected; intros p H; apply andb_prop in H; tauto|].
  split; [rewrite A7; apply map_ext; intros i; apply map_ext; intros j; apply Hcell; unfold sputtered; intros p H; apply andb_prop in H; tauto|].
  split.
  - intros coordinate lo hi num histogram [H|[H|[H|[]]]]; injection H as <- <- <- <- <-; assumption.
  - intros loss histogram [H|[H|[]]]; injection H as <- <-; assumption.
Qed.
Print Assumptions C60_histograms_partial.
Definition unit_axes : DistOptions R := (mkDistOptions 0 1 2%nat 0 180 2%nat 0 1 2%nat 0 1 2%nat 0 1 2%nat)%R.
Lemma unit_axes_ok : axes_ok unit_axes.
Proof. unfold axes_ok, axis_ok; cbn. repeat split; try lra; lia. Qed.
Definition at_depth (x : R) : Particle R := {|
  p_m := 1; p_Z := 1; p_E := 0; p_Ec := 1; p_Es := 0; p_Ed := 0; p_pos := mkV x 0 0; p_dir := mkV 1 0 0; p_pos_old := mkV 0 0 0; p_dir_old := mkV 1 0 0;
  p_pos_origin := mkV 0 0 0; p_energy_origin := 1; p_asymptotic_deflection := 0; p_stopped := true; p_left := false; p_incident := true; p_first_step := false;
  p_trajectory := []; p_energies := []; p_track_trajectories := false; p_number_collision_events := 1%nat; p_backreflected := false; p_interaction_index := 0%nat;
  p_weight := 1; p_tag := 0%Z; p_tracked_vector := mkV 0 0 0 |}%R.
(** A stopped ion at x = -1/2 is counted in the implantation bin [0, 1). *)
Theorem C60_position_below_axis_refuted :
  forall options, exists (d : DistOptions R) units p di,
    axes_ok d /\ deposited p = true /\ (vx (p_pos p) / ou_length_unit units < d_x_min d)%R /\
    distributions_update options units 1 (distributions_new d) p = Ok di /\ nth_error (di_implanted_x di) 0 = Some 1.
Proof.
  intros options.
  destruct (C60_histograms_partial unit_axes options (mkOU 1%R 1%R 1%R) 1 [at_depth (- 1 / 2)%R] (fun _ => 0%R) unit_axes_ok) as (di & E & _ & _ & Hx & _).
  { intros p [<-|[]] H. discriminate H. }
  specialize (Hx _ _ _ _ _ (or_introl eq_refl)).
  cbn [distributions_updates] in E. destruct (distributions_update options _ 1 _ _) as [di'| |] eqn:Eu; cbn [bind] in E; try discriminate. injection E as ->.
  exists unit_axes, (mkOU 1%R 1%R 1%R), (at_depth (- 1 / 2)%R), di. split; [exact unit_axes_ok|]. split; [reflexivity|]. split; [cbn; lra|]. split; [exact Eu|].
  rewrite Hx. cbn [d_x_num unit_axes seq map nth_error]. f_equal. unfold count. cbn [filter]. 
  assert (B : in_bin_or_just_below (d_x_min unit_axes) (bin_width (d_x_min unit_axes) (d_x_max unit_axes) 2) 0 (vx (p_pos (at_depth (- 1 / 2)%R)) / ou_length_unit (mkOU 1%R 1%R 1%R)) = true).
  { unfold in_bin_or_just_below, bin_width. cbn. destruct (Rlt_dec _ _) as [H1|H1]; [destruct (Rlt_dec _ _) as [H2|H2]|]; [apply orb_true_r| |]; exfalso; lra. }
  rewrite B. reflexivity.
Qed.
Print Assumptions C60_position_below_axis_refuted.
(** With one bin every update panics (index 1 of a one-element axis). *)
Theorem C60_single_bin_refuted :
  forall {F} {NF : Num F} (d : DistOptions F) options units n p, d_energy_num d = 1 ->
    distributions_update options units n (distributions_new d) p = Panic IndexOOB.
Proof.
  intros F NF d options units n p H. unfold distributions_update. destruct (energy_angle_from_particle p units) as (e & a).
  unfold bin_floor, distributions_new. cbn [di_energies]. rewrite H, axis_one. reflexivity.
Qed.
Print Assumptions C60_single_bin_refuted.
Example C60_applies : axes_ok unit_axes /\ enough_bins unit_axes /\ exists a, emission_angle (mkV (-1)%R 0%R 0%R) a.
Proof.
  split; [exact unit_axes_ok|]. split; [unfold enough_bins; cbn; lia|].
  exists (snd (energy_angle_from_particle (set_p_dir (mkV (-1) 0 0) (at_depth 0%R)) (mkOU 1 1 1)))%R.
  apply (angle_polar (set_p_dir (mkV (-1)%R 0%R 0%R) (at_depth 0%R))). cbn. intros E. injection E. lra.
Qed.
