(** * PropertiesMain.v - C126: what a run of the program does to the files *)
From Coq Require Import ZArith List Bool String Lia Floats.SpecFloat.
From Verif Require Import Num NumSF ModelTypes ModelParticle ModelGeometry ModelMaterial ModelBca ModelInput ModelToml ModelOutput ModelPhysics ModelMain
  ProofsBase ProofsInput ProofsToml Spec SpecRun SpecToml SpecMain ProofsRun ProofsMain PropertiesRun PropertiesAccount PropertiesToml Toy.
Import ListNotations.
Open Scope string_scope.
Open Scope nat_scope.

Ltac cases H := destruct H as [Hno|file g Ha Hno|file g t Ha Hf Hno| |file g t name ps mat o u n Ha Hf Hi Hc|file g t name ps mat o u n k Ha Hf Hi Hc
  |file g t name ps mat o u n ions schedule s es c cs written later st saved Ha Hf Hi Hc Hm Hs Hl Hw Hr Hsv
  |file g t name ps mat o u n ions schedule s es st saved k Ha Hf Hi Hc Hm Hs Hl Hr Hsv
  |file g t name ps mat o u n ions schedule s es st Ha Hf Hi Hc Hm Hs Hl Hr].

(** A run, however it ends, changes no file but the eight that carry the name given in the input document. *)
Theorem C126_only_its_own_files :
  forall {F} {NF : Num F} (w : Program F) args fs outcome fs' path,
    main_run w args fs outcome fs' -> fs' path <> fs path ->
    exists file g t name, parse_args (pg_parry3d w) args = Ok (file, g) /\ fs file = Some (Document t) /\
      named t name /\ In path (output_names name).
Proof.
  intros F NF w args fs oc fs' path H Hp.
  assert (G : forall file g t name ps mat o u n, parse_args (pg_parry3d w) args = Ok (file, g) -> fs file = Some (Document t) ->
    read_input w g t (pg_rng w) 0 = Ok ((name, (ps, mat, o, u)), n) -> In path (output_names name) ->
    exists file g t name, parse_args (pg_parry3d w) args = Ok (file, g) /\ fs file = Some (Document t) /\ named t name /\ In path (output_names name)).
  { intros file g t name ps mat o u n Ha Hf Hi Hin. apply read_input_inv in Hi. destruct Hi as (Hn & _). exists file, g, t, name. auto. }
  assert (D : forall name rows summary, with_output name rows summary fs path <> fs path -> In path (output_names name)).
  { intros name rows summary Hd. destruct (in_dec string_dec path (output_names name)) as [Hin|Hin]; [exact Hin|].
    exfalso. apply Hd. apply with_output_other. exact Hin. }
  cases H; try (exfalso; apply Hp; reflexivity).
  - destruct (truncated_at (firstn k (output_paths name)) fs path) as [E|(_ & Hin)]; [exfalso; apply Hp; exact E|].
    eapply G; eauto. rewrite output_names_paths. rewrite <- (firstn_skipn k). apply in_or_app. left. exact Hin.
  - eapply G; eauto.
  - eapply G; eauto.
  - eapply G; eauto.
Qed.
Print Assumptions C126_only_its_own_files.

(** Wrong arguments, a file that is missing or is no document, an input that is rejected, or more chunks than
    ions: no file is touched. *)
Theorem C126_rejected_run_changes_nothing :
  forall {F} {NF : Num F} (w : Program F) args fs outcome fs', main_run w args fs outcome fs' ->
    (forall file g t name ps mat o u n, parse_args (pg_parry3d w) args = Ok (file, g) -> fs file = Some (Document t) ->
       read_input w g t (pg_rng w) 0 = Ok ((name, (ps, mat, o, u)), n) -> List.length ps < o_num_chunks o) ->
    outcome = Died /\ fs' = fs.
Proof.
  intros F NF w args fs oc fs' H Hno.
  assert (N : forall file g t name ps mat o u n, parse_args (pg_parry3d w) args = Ok (file, g) -> fs file = Some (Document t) ->
       read_input w g t (pg_rng w) 0 = Ok ((name, (ps, mat, o, u)), n) -> 0 < Nat.div (List.length ps) (o_num_chunks o) -> False).
  { intros file g t name ps mat o u n Ha Hf Hi Hc. specialize (Hno _ _ _ _ _ _ _ _ _ Ha Hf Hi). rewrite Nat.div_small in Hc by exact Hno. lia. }
  clear Hno. cases H; auto; exfalso; eapply N; eauto.
Qed.
Print Assumptions C126_rejected_run_changes_nothing.

Lemma runner_parallel {F} {NF : Num F} (w : Program F) mat o schedule : (forall chunk, split_leaves (schedule chunk) = chunk) ->
  exists schedule', (forall chunk, split_leaves (schedule' chunk) = chunk) /\
    runner w mat o schedule = (fun chunk => run_chunk_parallel (pg_build w) mat o (pg_fuel w) (schedule' chunk)).
Proof.
  intros Hs. unfold runner. destruct (Nat.ltb 1 (o_num_threads o)).
  - exists schedule. auto.
  - exists (fun c => Leaf c). split; reflexivity.
Qed.
(** A run that finishes: what the eight files hold.  Every ion of the particle list has its one row, in order,
    in the reflected or in the deposited list; there are as many as the document asks for, and the
    summary counts the rows of the lists.  The other files are those that were there before. *)
Theorem C126_finished_run :
  forall {F} {NF : Num F} (w : Program F) args fs fs', main_run w args fs Finished fs' ->
    exists file g t name asked ps mat o u n, parse_args (pg_parry3d w) args = Ok (file, g) /\ fs file = Some (Document t) /\
      named t name /\ asks_for t asked /\ read_input w g t (pg_rng w) 0 = Ok ((name, (ps, mat, o, u)), n) /\
      exists fates sputtered_rows summary, Forall2 (fate_of o) ps fates /\ List.length fates = asked /\
        fs' (name ++ "reflected.output") = Some (Rows (map (reflected_row u) (filter (@p_left F) fates))) /\
        fs' (name ++ "deposited.output") = Some (Rows (map (deposited_row u) (filter (@p_stopped F) fates))) /\
        fs' (name ++ "sputtered.output") = Some (Rows sputtered_rows) /\
        fs' (name ++ "summary.output") = Some (Rows (map (fun q => let '(m, r, sp, d) := q in [CF m; CN r; CN sp; CN d]) summary)) /\
        list_sum (map (fun q => let '(m, r, sp, d) := q in r) summary) = List.length (filter (@p_left F) fates) /\
        list_sum (map (fun q => let '(m, r, sp, d) := q in sp) summary) = List.length sputtered_rows /\
        list_sum (map (fun q => let '(m, r, sp, d) := q in d) summary) = List.length (filter (@p_stopped F) fates) /\
        List.length (filter (@p_left F) fates) + List.length (filter (@p_stopped F) fates) = asked /\
        (forall path, ~ In path (output_names name) -> fs' path = fs path).
Proof.
  intros F NF w args fs fs' H. remember Finished as oc eqn:Eoc. cases H; try discriminate Eoc.
  pose proof Hi as Hin. apply read_input_inv in Hin. destruct Hin as (Hn & inp & Hask & Hin).
  exists file, g, t, name, (list_sum (firstn (List.length (pp_Z (in_particle inp))) (pp_N (in_particle inp)))), ps, mat, o, u, n. do 3 (split; [eassumption|]). split; [exact Hask|]. split; [exact Hi|].
  assert (Hlen : List.length ps = List.length ions) by (rewrite <- Hm; apply map_length).
  rewrite Hlen in Hc. destruct (runner_parallel w mat o schedule Hs) as (sch & Hs' & Er). rewrite Er in Hl.
  apply (loop_done _ _ _ _ _ _ Hc) in Hl. destruct Hl as (r & Hl & <-).
  assert (Hh : o_use_hdf5 o = false).
  { destruct (o_use_hdf5 o) eqn:E; [|reflexivity]. exfalso. unfold input in Hin. cbv zeta in Hin.
    repeat (apply mbind_ok in Hin; let a := fresh "a" in let k := fresh "k" in let E := fresh "E" in destruct Hin as (a & k & E & Hin)).
    apply mret_ok in Hin. destruct Hin as (Hin & _). injection Hin as _ _ Eo _. subst o.
    match goal with H : make_particles _ _ _ _ _ _ _ _ _ _ = Ok _ |- _ => unfold make_particles in H; rewrite E in H; cbn in H; discriminate H end. }
  pose proof Hl as Hl'. rewrite C56_parallel_serial in Hl' by exact Hs'.
  destruct (C58_totals _ _ _ _ _ _ _ _ Hl') as (T1 & T2 & T3).
  destruct (C114_every_requested_ion_is_accounted_for (pg_build w) mat o (pg_fuel w) u ps ions sch s r Hm Hs' Hl) as (fates & HF & Hrefl & Hdep).
  destruct (C114_numbers_add_up _ _ _ _ _ _ _ _ _ _ (pg_build w) (pg_fuel w) ions sch s r Hin Hh Hm Hs' Hl) as (A1 & _).
  assert (HA : forall f, (on_disk (st f) ++ in_buffer (st f))%list = rows_of f (List.concat r)).
  { intros f. destruct (run_complete _ f _ _ Hr) as (C & _). exact C. }
  exists fates, (rows_of Sputtered (List.concat r)), (sps_print s u).
  rewrite Hrefl, Hdep, !map_length in A1. rewrite Hrefl, map_length in T1. rewrite Hdep, map_length in T3.
  assert (HLf : List.length fates = List.length (filter (@p_left F) fates) + List.length (filter (@p_stopped F) fates)).
  { clear -HF. induction HF as [|i f is fs (p & _ & _ & _ & Hf) HF IH]; [reflexivity|].
    cbn [filter]. rewrite Hf. destruct (p_stopped f); cbn [negb List.length]; lia. }
  split; [exact HF|]. split; [rewrite HLf; exact A1|].
  split; [change (name ++ "reflected.output") with (list_path name Reflected); rewrite with_output_list, HA, Hrefl; reflexivity|].
  split; [change (name ++ "deposited.output") with (list_path name Deposited); rewrite with_output_list, HA, Hdep; reflexivity|].
  split; [change (name ++ "sputtered.output") with (list_path name Sputtered); rewrite with_output_list, HA; reflexivity|].
  split; [change (name ++ "summary.output") with (summary_path name); rewrite with_output_summary; reflexivity|].
  split; [rewrite T1; f_equal; apply map_ext; intros (((m & a) & b) & d); reflexivity|].
  split; [rewrite T2; f_equal; apply map_ext; intros (((m & a) & b) & d); reflexivity|].
  split; [rewrite T3; f_equal; apply map_ext; intros (((m & a) & b) & d); reflexivity|].
  split; [exact A1|]. intros path Hp. apply with_output_other. exact Hp.
Qed.
Print Assumptions C126_finished_run.

(** The seven list files after a run that finishes, from the particles the simulation of each ion returned. *)
Theorem C126_list_files :
  forall {F} {NF : Num F} (w : Program F) args fs fs', main_run w args fs Finished fs' ->
    exists file g t name ps mat o u n per_ion, parse_args (pg_parry3d w) args = Ok (file, g) /\ fs file = Some (Document t) /\
      read_input w g t (pg_rng w) 0 = Ok ((name, (ps, mat, o, u)), n) /\
      Forall2 (fun i out => exists p rng k, from_input i o = Ok p /\ single_ion_bca (pg_build w) mat o (pg_fuel w) p rng 0 = Ok (out, k)) ps per_ion /\
      let all := List.concat per_ion in
      fs' (name ++ "reflected.output") = Some (Rows (map (reflected_row u) (filter reflected all))) /\
      fs' (name ++ "sputtered.output") = Some (Rows (map (sputtered_row u) (filter sputtered all))) /\
      fs' (name ++ "deposited.output") = Some (Rows (map (deposited_row u) (filter deposited all))) /\
      fs' (name ++ "displacements.output") = Some (Rows (if o_track_displacements o then map (displaced_row u) (filter displaced all) else [])) /\
      fs' (name ++ "trajectories.output") = Some (Rows (flat_map (trajectory_rows u) (filter (@p_track_trajectories F) all))) /\
      fs' (name ++ "trajectory_data.output") = Some (Rows (map (fun p => [CN (List.length (trajectory_rows u p))]) (filter (@p_track_trajectories F) all))) /\
      fs' (name ++ "energy_loss.output") = Some (Rows (if o_track_energy_losses o then flat_map (energy_loss_rows u) (filter (@p_incident F) all) else [])).
Proof.
  intros F NF w args fs fs' H. remember Finished as oc eqn:Eoc. cases H; try discriminate Eoc.
  assert (Hlen : List.length ps = List.length ions) by (rewrite <- Hm; apply map_length).
  rewrite Hlen in Hc. destruct (runner_parallel w mat o schedule Hs) as (sch & Hs' & Er). rewrite Er in Hl.
  apply (loop_done _ _ _ _ _ _ Hc) in Hl. destruct Hl as (r & Hl & <-). rewrite C56_parallel_serial in Hl by exact Hs'.
  destruct (C54_every_ion_once _ _ _ _ _ _ _ _ Hl) as (per & HP & HR).
  exists file, g, t, name, ps, mat, o, u, n, per. do 3 (split; [eassumption|]).
  split. { rewrite <- Hm. clear -HP. induction HP as [|i out ions per (p & k & H1 & H2) HP IH]; [constructor|]. cbn [map]. constructor; [|exact IH]. eauto. }
  cbv zeta. set (ps' := List.concat per) in *.
  assert (HA : forall f rows, rows_of f (List.concat r) = rows -> with_output name (fun f => on_disk (st f) ++ in_buffer (st f))%list (map summary_row (sps_print s u)) fs (list_path name f) = Some (Rows rows)).
  { intros f rows <-. rewrite with_output_list. destruct (run_complete _ f _ _ Hr) as (C & _). cbn [open_output_lists on_disk in_buffer app] in C. rewrite C. reflexivity. }
  assert (E : forall f g', (forall p : Particle F, rows_of f (output_lists o u p) = g' p) -> rows_of f (List.concat r) = flat_map g' ps').
  { intros f g' Hg. rewrite HR. apply flat_map_ext. exact Hg. }
  repeat split.
  - apply (HA Reflected). erewrite E by (intros p; apply (output_lists_rows _ _ p Reflected)). apply flat_map_filter.
  - apply (HA Sputtered). erewrite E by (intros p; apply (output_lists_rows _ _ p Sputtered)). apply flat_map_filter.
  - apply (HA Deposited). erewrite E by (intros p; apply (output_lists_rows _ _ p Deposited)). apply flat_map_filter.
  - apply (HA Displacements). erewrite E by (intros p; apply (output_lists_rows _ _ p Displacements)). destruct (o_track_displacements o).
    + rewrite <- flat_map_filter. apply flat_map_ext. intros p. rewrite andb_true_r. reflexivity.
    + clear. generalize ps' as l. induction l as [|p l IH]; [reflexivity|]. cbn [flat_map]. rewrite andb_false_r. exact IH.
  - apply (HA Trajectories). erewrite E by (intros p; apply (output_lists_rows _ _ p Trajectories)). apply flat_map_filter_list.
  - apply (HA TrajectoryData). erewrite E by (intros p; apply (output_lists_rows _ _ p TrajectoryData)). rewrite <- flat_map_filter. apply flat_map_ext.
    intros p. unfold trajectory_rows. rewrite map_length. reflexivity.
  - apply (HA EnergyLosses). erewrite E by (intros p; apply (output_lists_rows _ _ p EnergyLosses)). destruct (o_track_energy_losses o).
    + rewrite <- flat_map_filter_list. apply flat_map_ext. intros p. rewrite andb_true_r. reflexivity.
    + clear. generalize ps' as l. induction l as [|p l IH]; [reflexivity|]. cbn [flat_map]. rewrite andb_false_r. exact IH.
Qed.
Print Assumptions C126_list_files.

Lemma input_geometry {F} {NF : Num F} ft normal_ok (inp : InputData F) rng k ps mat o u n :
  input ft normal_ok inp rng k = Ok ((ps, mat, o, u), n) -> in_geometry inp = Ok (mat_geometry mat).
Proof.
  intros H. unfold input in H. cbv zeta in H.
  apply mbind_ok in H. destruct H as (mat0 & k0 & Em & H). apply mlift_ok in Em. destruct Em as (Em & ->).
  unfold material_new in Em. apply bind_ok in Em. destruct Em as (eu & _ & Em). apply bind_ok in Em. destruct Em as (mu & _ & Em).
  apply bind_ok in Em. destruct Em as (g & Hg & Em). injection Em as <-.
  repeat (apply mbind_ok in H; let a := fresh "a" in let k := fresh "k" in let E := fresh "E" in destruct H as (a & k & E & H)).
  apply mret_ok in H. destruct H as (H & _). injection H as _ -> _ _. exact Hg.
Qed.
Lemma named_geometry {F} {NF : Num F} {G G'} (w : Program F) (rg : Toml F -> Res G) (new : G -> Res G') geometry t rng k name ps mat o u n :
  named_input w rg (built new geometry) t rng k = Ok ((name, (ps, mat, o, u)), n) ->
  exists tg i m, geometry_section t tg /\ rg tg = Ok i /\ new i = Ok m /\ mat_geometry mat = geometry m.
Proof.
  intros H. apply named_input_inv in H. destruct H as (inp & Hr & Hi). apply input_geometry in Hi.
  unfold read_file in Hr. apply bind_ok in Hr. destruct Hr as ((name' & o') & _ & Hr). apply bind_ok in Hr. destruct Hr as (m & _ & Hr).
  apply bind_ok in Hr. destruct Hr as (p & _ & Hr). apply bind_ok in Hr. destruct Hr as (g & Hg & Hr). injection Hr as _ <-. cbn [in_geometry] in Hi.
  apply field_inv in Hg. destruct Hg as (l & tg & -> & Gg & Hg). unfold built in Hi. apply bind_ok in Hi. destruct Hi as (m' & Hm & Hi). injection Hi as Hi.
  exists tg, g, m'. split; [exists l; auto|]. auto.
Qed.
(** The target of the run is made from the geometry section of the document, read as the geometry type of the command line. *)
Theorem C126_target_asked_for :
  forall {F} {NF : Num F} (w : Program F) g t rng k name ps mat o u n,
    read_input w g t rng k = Ok ((name, (ps, mat, o, u)), n) ->
    exists tg, geometry_section t tg /\
      match g with
      | G_MESH0D => exists i m, read_mesh0d (pg_parse w) tg = Ok i /\ mesh0d_new i = Ok m /\ mat_geometry mat = mesh0d_geometry m
      | G_MESH1D => exists i m, read_mesh1d (pg_parse w) tg = Ok i /\ mesh1d_new i = Ok m /\ mat_geometry mat = mesh1d_geometry m
      | G_MESH2D => exists i m, read_mesh2d (pg_parse w) tg = Ok i /\ mesh2d_new (pg_polygon w) i = Ok m /\ mat_geometry mat = mesh2d_geometry m
      | G_HOMOGENEOUS2D => exists i m, read_homogeneous2d (pg_parse w) tg = Ok i /\ homogeneous2d_new (pg_polygon w) i = Ok m /\ mat_geometry mat = homogeneous2d_geometry m
      | G_SPHERE => exists i m, read_sphere (pg_parse w) tg = Ok i /\ sphere_new i = Ok m /\ mat_geometry mat = sphere_geometry m
      | G_BALL => exists i m, read_sphere (pg_parse w) tg = Ok i /\ parryball_new (pg_ball w) i = Ok m /\ mat_geometry mat = parryball_geometry m
      | G_TRIMESH => exists i m, read_trimesh (pg_parse w) tg = Ok i /\ parrytrimesh_new (pg_mesh w) i = Ok m /\ mat_geometry mat = parrytrimesh_geometry m
      end.
Proof.
  intros F NF w g t rng k name ps mat o u n H.
  destruct g; cbn [read_input] in H; apply named_geometry in H; destruct H as (tg & i & m & H1 & H2 & H3 & H4); exists tg; (split; [exact H1|]); exists i, m; auto.
Qed.
Print Assumptions C126_target_asked_for.

(** What a finished run leaves does not depend on what the files held before, the input document apart. *)
Theorem C126_old_contents_do_not_matter :
  forall {F} {NF : Num F} (w : Program F) args fs fs2 fs', main_run w args fs Finished fs' ->
    (forall file g, parse_args (pg_parry3d w) args = Ok (file, g) -> fs2 file = fs file) ->
    exists name fs2', main_run w args fs2 Finished fs2' /\
      (forall path, In path (output_names name) -> fs2' path = fs' path) /\
      (forall path, ~ In path (output_names name) -> fs2' path = fs2 path /\ fs' path = fs path).
Proof.
  intros F NF w args fs fs2 fs' H Hsame. remember Finished as oc eqn:Eoc. cases H; try discriminate Eoc.
  exists name. eexists. split; [eapply finished; try eassumption; rewrite (Hsame _ _ Ha); exact Hf|].
  split.
  - intros path Hp. rewrite output_names_paths in Hp. apply in_app_or in Hp. destruct Hp as [Hp|[<-|[]]].
    + apply in_map_iff in Hp. destruct Hp as (f & <- & _). rewrite !with_output_list. reflexivity.
    + rewrite !with_output_summary. reflexivity.
  - intros path Hp. rewrite !with_output_other by exact Hp. auto.
Qed.
Print Assumptions C126_old_contents_do_not_matter.

(** Runs with different names do not touch each other's files. *)
Theorem C126_runs_do_not_interfere :
  forall {F} {NF : Num F} (w : Program F) args fs outcome fs' name,
    main_run w args fs outcome fs' ->
    (forall file g t other, parse_args (pg_parry3d w) args = Ok (file, g) -> fs file = Some (Document t) -> named t other -> other <> name) ->
    forall path, In path (output_names name) -> fs' path = fs path.
Proof.
  intros F NF w args fs oc fs' name0 H Hne path Hp.
  assert (N : forall file g t nm ps mat o u n, parse_args (pg_parry3d w) args = Ok (file, g) -> fs file = Some (Document t) ->
       read_input w g t (pg_rng w) 0 = Ok ((nm, (ps, mat, o, u)), n) -> ~ In path (output_names nm)).
  { intros file g t nm ps mat o u n Ha Hf Hi Hin. apply read_input_inv in Hi. destruct Hi as (Hn & _).
    exact (names_disjoint _ _ _ (Hne _ _ _ _ Ha Hf Hn) Hin Hp). }
  cases H; try reflexivity; specialize (N _ _ _ _ _ _ _ _ _ Ha Hf Hi).
  - destruct (truncated_at (firstn k (output_paths name)) fs path) as [E|(_ & Hin)]; [exact E|].
    exfalso. apply N. rewrite output_names_paths. rewrite <- (firstn_skipn k). apply in_or_app. left. exact Hin.
  - apply with_output_other. exact N.
  - apply with_output_other. exact N.
  - apply with_output_other. exact N.
Qed.
Print Assumptions C126_runs_do_not_interfere.

(** A run that dies leaves in each list file what was there before, or the beginning of what the same
    run - the same ions, random numbers and schedule - would have left had it gone on to the end. *)
Theorem C126_died_run :
  forall {F} {NF : Num F} (w : Program F) args fs fs', main_run w args fs Died fs' -> fs' <> fs ->
    exists file g t name ps mat o u n ions schedule,
      parse_args (pg_parry3d w) args = Ok (file, g) /\ fs file = Some (Document t) /\
      read_input w g t (pg_rng w) 0 = Ok ((name, (ps, mat, o, u)), n) /\ map (@ion_input F) ions = ps /\
      (forall chunk, split_leaves (schedule chunk) = chunk) /\
      forall f, fs' (list_path name f) = fs (list_path name f) \/
        exists rows, fs' (list_path name f) = Some (Rows rows) /\
          forall s es, physics_loop (runner w mat o schedule) o u ions = Ok (s, es) -> prefix rows (rows_of f (List.concat es)).
Proof.
  intros F NF w args fs fs' H Hd. remember Died as oc eqn:Eoc. cases H; try discriminate Eoc; try (exfalso; apply Hd; reflexivity).
  - exists file, g, t, name, ps, mat, o, u, n, (map (fun p => mkIon p (pg_rng w)) ps), (fun c => Leaf c).
    do 3 (split; [assumption|]). split; [rewrite map_map; apply map_id|]. split; [reflexivity|].
    intros f. destruct (truncated_at (firstn k (output_paths name)) fs (list_path name f)) as [E|(E & _)]; [left; exact E|right].
    exists []. split; [exact E|]. intros s es _. exists (rows_of f (List.concat es)). reflexivity.
  - exists file, g, t, name, ps, mat, o, u, n, ions, schedule. do 5 (split; [assumption|]).
    intros f. right. exists (saved f). split; [apply with_output_list|]. intros sF esF Hp.
    destruct (Hsv f) as (lost & E & _). eapply prefix_trans; [eapply saved_prefix; [exact Hr|exact E]|]. apply rows_prefix.
    eapply loop_prefix; eauto. rewrite <- Hm, map_length in Hc. exact Hc.
  - exists file, g, t, name, ps, mat, o, u, n, ions, schedule. do 5 (split; [assumption|]).
    intros f. right. exists (saved f). split; [apply with_output_list|]. intros sF esF Hp.
    destruct (Hsv f) as (lost & E & _). rewrite <- Hm, map_length in Hc. apply (loop_done _ _ _ _ _ _ Hc) in Hl.
    destruct Hl as (r & Hl & <-). rewrite Hl in Hp. injection Hp as _ <-. eapply saved_prefix; [exact Hr|exact E].
Qed.
Print Assumptions C126_died_run.

(** An accepted input whose ions can all be followed to their ends has a run that finishes. *)
Theorem C126_can_finish :
  forall {F} {NF : Num F} (w : Program F) args fs file g t name ps mat o u n ions schedule s es,
    parse_args (pg_parry3d w) args = Ok (file, g) -> fs file = Some (Document t) ->
    read_input w g t (pg_rng w) 0 = Ok ((name, (ps, mat, o, u)), n) -> map (@ion_input F) ions = ps ->
    (forall chunk, split_leaves (schedule chunk) = chunk) ->
    physics_loop (runner w mat o schedule) o u ions = Ok (s, es) ->
    exists fs', main_run w args fs Finished fs'.
Proof.
  intros F NF w args fs file g t name ps mat o u n ions schedule s es Ha Hf Hi Hm Hs Hl.
  assert (Hc : 0 < Nat.div (List.length ions) (o_num_chunks o)).
  { unfold physics_loop in Hl. destruct (o_num_chunks o); [discriminate|]. apply bind_ok in Hl. destruct Hl as (? & Hl & _).
    apply rassert_ok in Hl. apply Nat.ltb_lt in Hl. exact Hl. }
  destruct (run_exists (List.concat es) open_output_lists) as (st & Hr).
  eexists. eapply finished; try eassumption.
  - rewrite <- Hm, map_length. exact Hc.
  - apply (loop_done _ _ _ _ _ _ Hc). eexists. split; [exact Hl|reflexivity].
Qed.
Print Assumptions C126_can_finish.

(** A concrete program, command line and document: the run finishes. *)
Definition toy_program : Program spec_float :=
  {| pg_parry3d := false; pg_cpr := false; pg_parse := toy_parse;
     pg_polygon := fun _ => mkPolygon (fun _ _ => false) (fun _ _ => C_Indeterminate);
     pg_ball := fun _ => mkBallQueries (fun _ _ _ => false) (fun x _ _ => x) (fun x y z => (x, y, z));
     pg_mesh := fun _ _ => mkTriMeshQueries (fun _ _ _ => false) (fun _ _ _ => None) (fun x _ _ => x) (fun x _ _ => x) (fun x y z => (x, y, z));
     pg_build := None; pg_normal_ok := fun _ => true; pg_rng := toy_rng; pg_fuel := 10 |}.
Definition run_document : Toml spec_float := TTable
  [("options", TTable [("name", TString "demo_"); ("num_chunks", TInt 2); ("num_threads", TInt 4);
      ("interaction_potential", TArray [TArray [TTable [("COULOMB", TTable [("Za", TInt 1); ("Zb", TInt 2)])]]]);
      ("scattering_integral", TArray [TArray [TTable [("GAUSS_MEHLER", TTable [("n_points", TInt 2)])]]])]);
   ("material_parameters", TTable [("energy_unit", TString "EV"); ("mass_unit", TString "AMU"); ("Eb", TArray [TInt 0]); ("Es", TArray [TInt 2]);
      ("Ec", TArray [TInt 20]); ("Ed", TArray [TInt 25]); ("Z", TArray [TInt 2]); ("m", TArray [TInt 4]); ("bulk_binding_model", TString "AVERAGE")]);
   ("particle_parameters", TTable [("length_unit", TString "M"); ("energy_unit", TString "EV"); ("mass_unit", TString "AMU"); ("N", TArray [TInt 3]);
      ("m", TArray [TInt 4]); ("Z", TArray [TInt 1]); ("E", TArray [TInt 100]); ("Ec", TArray [TInt 60]); ("Es", TArray [TInt 1]);
      ("pos", TArray [TArray [TFloat (nlit 5 (-1)); TInt 0; TInt 0]]); ("dir", TArray [TArray [TFloat (nlit 6 (-1)); TFloat (nlit 8 (-1)); TInt 0]])]);
   ("geometry_input", TTable [("length_unit", TString "M"); ("densities", TArray [TInt 1]); ("electronic_stopping_correction_factor", TInt 1)])].
Definition disk : FileSystem spec_float :=
  fun path => if String.eqb path "in.toml" then Some (Document run_document) else if String.eqb path "demo_reflected.output" then Some (Other "old") else None.
Definition demo_run : option (string * nat * nat * nat) :=
  match read_input toy_program G_MESH0D run_document toy_rng 0 with
  | Ok ((name, (ps, mat, o, u)), _) =>
      match physics_loop (runner toy_program mat o halves) o u (map (fun i => mkIon i toy_rng) ps) with
      | Ok (s, es) => Some (name, List.length ps, List.length (rows_of Reflected (List.concat es)), List.length (rows_of Deposited (List.concat es)))
      | _ => None
      end
  | _ => None
  end.
Example C126_applies : demo_run = Some ("demo_", 3, 0, 3).
Proof. vm_compute. reflexivity. Qed.
