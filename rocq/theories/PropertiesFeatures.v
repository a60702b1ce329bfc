(** * PropertiesFeatures.v - C121: the output features change what is written, not what is simulated *)
From Coq Require Import ZArith List Bool Lia Reals Lra Floats.SpecFloat.
From Verif Require Import Num NumSF NumR ModelTypes ModelConsts ModelParticle ModelGeometry ModelMaterial ModelBca ModelOutput ModelPhysics
  ModelFeatures ProofsBase ProofsBca ProofsInput Spec SpecRun ProofsRun ProofsHist Toy PropertiesRun.
Import ListNotations.
Open Scope nat_scope.

Section Proofs.
  Context {F : Type} {NF : Num F}.
  Definition hist_updates (options : Options F) units n (h : option (Distributions F)) ps : Res (option (Distributions F)) :=
    match h with None => Ok None | Some d => let! d := distributions_updates options units n d ps in Ok (Some d) end.
  Definition hist_ok (ft : Features F) (h : option (Distributions F)) : Prop :=
    match ft_distributions ft, h with
    | None, None => True
    | Some d, Some di => enough_bins d /\ shape d di
    | _, _ => False
    end.
  Lemma hist_one ft options units n h p : hist_ok ft h -> exists h', update_histograms options units n h p = Ok h' /\ hist_ok ft h'.
  Proof.
    unfold hist_ok, update_histograms. destruct (ft_distributions ft) as [d|], h as [di|]; try tauto.
    - intros (He & Hs). destruct (update_safe d options units n di p He Hs) as (d1 & -> & S1). cbn [bind]. exists (Some d1). auto.
    - exists None. auto.
  Qed.
  Lemma hist_cons options units n h h' p ps : update_histograms options units n h p = Ok h' ->
    hist_updates options units n h (p :: ps) = hist_updates options units n h' ps.
  Proof.
    unfold update_histograms, hist_updates. destruct h as [d|]; [|intros H; injection H as <-; reflexivity]. cbn [distributions_updates].
    destruct (distributions_update options units n d p); cbn [bind]; intros H; try discriminate. injection H as <-. reflexivity.
  Qed.
  Lemma hist_app options units n ps ps' : forall h,
    hist_updates options units n h (ps ++ ps') = (let! h := hist_updates options units n h ps in hist_updates options units n h ps').
  Proof.
    induction ps as [|p ps IH]; intros [d|]; try reflexivity.
    cbn [app]. destruct (update_histograms options units n (Some d) p) as [h'| |] eqn:E.
    - rewrite !(hist_cons _ _ _ _ _ _ _ E). apply IH.
    - unfold update_histograms in E. unfold hist_updates. cbn [distributions_updates].
      destruct (distributions_update options units n d p); cbn [bind] in *; try discriminate. reflexivity.
    - unfold update_histograms in E. unfold hist_updates. cbn [distributions_updates].
      destruct (distributions_update options units n d p); cbn [bind] in *; try discriminate. reflexivity.
  Qed.
  Lemma finished_eq ft options units n ps : forall s h es (no_list : bool), hist_ok ft h ->
    exists h', hist_updates options units n h ps = Ok h' /\ hist_ok ft h' /\
      process_finished no_list options units n s h es ps =
      (let! s := sps_updates s ps in Ok (s, h', if no_list then es else es ++ flat_map (output_lists options units) ps)).
  Proof.
    induction ps as [|p ps IH]; intros s h es nl Hh.
    - exists h. split; [destruct h; reflexivity|]. split; [auto|]. cbn. rewrite app_nil_r. destruct nl; reflexivity.
    - destruct (hist_one ft options units n h p Hh) as (h1 & E1 & H1). cbn [process_finished sps_updates].
      destruct (sps_update s p) as [s1|e|].
      + cbn [bind]. rewrite E1. cbn [bind].
        destruct (IH s1 h1 (if nl then es else es ++ output_lists options units p) nl H1) as (h' & A & B & C). exists h'.
        rewrite (hist_cons _ _ _ _ _ _ _ E1). split; [exact A|]. split; [exact B|]. rewrite C. destruct (sps_updates s1 ps); cbn [bind]; auto.
        destruct nl; auto. cbn [flat_map]. rewrite <- app_assoc. reflexivity.
      + destruct (IH s h1 es nl H1) as (h' & A & B & _). exists h'. rewrite (hist_cons _ _ _ _ _ _ _ E1). repeat split; auto.
      + destruct (IH s h1 es nl H1) as (h' & A & B & _). exists h'. rewrite (hist_cons _ _ _ _ _ _ _ E1). repeat split; auto.
  Qed.
  Lemma loop_features_eq ft run options units n (nl : bool) cs : forall s h, hist_ok ft h ->
    match chunk_loop run options units s cs with
    | Ok (s', es) => exists outs h', Forall2 (fun c out => run c = Ok out) cs outs /\ hist_updates options units n h (concat outs) = Ok h' /\
        chunk_loop_features nl run options units n s h cs = Ok (s', h', if nl then map (fun _ => []) es else es)
    | Panic e => chunk_loop_features nl run options units n s h cs = Panic e
    | OutOfFuel => chunk_loop_features nl run options units n s h cs = OutOfFuel
    end.
  Proof.
    induction cs as [|c cs IH]; intros s h Hh.
    - cbn. exists [], h. split; [constructor|]. split; [destruct h; reflexivity|]. destruct nl; reflexivity.
    - cbn [chunk_loop chunk_loop_features]. destruct (run c) as [out|e|] eqn:Er; cbn [bind]; auto.
      destruct (finished_eq ft options units n out s h [] nl Hh) as (h1 & A & B & C). rewrite C.
      unfold process_chunk. rewrite process_particles_eq.
      destruct (sps_updates s out) as [s1|e|]; cbn [bind]; auto.
      specialize (IH s1 h1 B). destruct (chunk_loop run options units s1 cs) as [(s2 & rest)|e|]; cbn [bind].
      + destruct IH as (outs & h2 & R & H2 & E2). exists (out :: outs), h2. split; [constructor; auto|]. split.
        * cbn [concat]. rewrite hist_app, A. exact H2.
        * rewrite E2. cbn [bind]. destruct nl; reflexivity.
      + rewrite IH. reflexivity.
      + rewrite IH. reflexivity.
  Qed.
End Proofs.

(** ** C121 *)
(** For every choice of the two features (histograms with at least two bins per
    axis): the run ends as it does without them - with the same summary, or in the
    same panic -, the list files receive exactly the same records in the same
    chunks, or with "no_list_output" are not touched, and the histograms are those
    of all finished particles, in order, normalised by the number of ions. *)
Theorem C121_features_do_not_interfere :
  forall {F} {NF : Num F} (ft : Features F) run (options : Options F) units ions,
    (forall d, ft_distributions ft = Some d -> enough_bins d) ->
    match physics_loop run options units ions with
    | Ok (summary, records) =>
        exists cs outs out, concat cs = ions /\ Forall2 (fun c out => run c = Ok out) cs outs /\
          physics_loop_features ft run options units ions = Ok out /\
          oc_summary out = summary /\
          oc_list_files out = (if ft_no_list_output ft then None else Some records) /\
          match ft_distributions ft with
          | None => oc_histograms out = None
          | Some d => exists di, oc_histograms out = Some di /\
              distributions_updates options units (length ions) (distributions_new d) (concat outs) = Ok di
          end
    | Panic e => physics_loop_features ft run options units ions = Panic e
    | OutOfFuel => physics_loop_features ft run options units ions = OutOfFuel
    end.
Proof.
  intros F NF ft run options units ions Hd. unfold physics_loop, physics_loop_features.
  destruct (o_num_chunks options) as [|k] eqn:Ek; [reflexivity|]. rewrite <- Ek.
  destruct (rassert (0 <? length ions / o_num_chunks options)) as [u|e|] eqn:Ea; cbn [bind]; auto.
  apply rassert_ok in Ea. apply Nat.ltb_lt in Ea.
  set (h := match ft_distributions ft with None => None | Some d => Some (distributions_new d) end).
  assert (Hh : hist_ok ft h).
  { unfold h, hist_ok. destruct (ft_distributions ft) as [d|]; auto. split; [apply Hd; reflexivity|apply shape_new]. }
  pose proof (loop_features_eq ft run options units (length ions) (ft_no_list_output ft) (chunks (length ions / o_num_chunks options) ions) sps_new h Hh) as H.
  destruct (chunk_loop run options units sps_new _) as [(s & es)|e|].
  - destruct H as (outs & h' & R & Hu & ->). cbn [bind].
    assert (0 < length ions) by (destruct (length ions); [rewrite Nat.div_0_l in Ea; lia|lia]).
    eexists _, outs, _. split; [exact (cut_concat _ _ _ (chunks_cut _ ions Ea ltac:(assumption)))|].
    split; [exact R|]. split; [reflexivity|]. cbn [oc_summary oc_list_files oc_histograms]. split; [reflexivity|].
    split; [destruct (ft_no_list_output ft); reflexivity|]. unfold hist_updates, h in Hu. destruct (ft_distributions ft) as [d|].
    + apply bind_ok in Hu. destruct Hu as (di & E & Hu). injection Hu as <-. exists di. split; [reflexivity|exact E].
    + injection Hu as <-. reflexivity.
  - rewrite H. reflexivity.
  - rewrite H. reflexivity.
Qed.
Print Assumptions C121_features_do_not_interfere.

(** Without either feature this is the loop of C54-C59. *)
Theorem C121_plain_build :
  forall {F} {NF : Num F} run (options : Options F) units ions,
    physics_loop_features (mkFeatures None false) run options units ions =
    (let! (s, es) := physics_loop run options units ions in Ok (mkOutcome s None (Some es))).
Proof.
  intros F NF run options units ions.
  pose proof (C121_features_do_not_interfere (mkFeatures None false) run options units ions ltac:(discriminate)) as H.
  destruct (physics_loop run options units ions) as [(s & es)|e|]; cbn [bind]; auto.
  destruct H as (cs & outs & out & _ & _ & -> & H1 & H2 & H3). cbn in *. destruct out; cbn in *. subst. reflexivity.
Qed.
Print Assumptions C121_plain_build.

(** With fewer than two energy bins the histograms stop a run that would have completed. *)
Theorem C121_one_energy_bin_refuted :
  exists (ft : Features spec_float) (options : Options spec_float) run units ions d,
    ft_distributions ft = Some d /\ d_energy_num d = 1 /\ finishes (physics_loop run options units ions) /\
    physics_loop_features ft run options units ions = Panic IndexOOB.
Proof.
  set (d := mkDistOptions (nZ 0) (nZ 1) 1 (nZ 0) (nZ 1) 2 (nZ 0) (nZ 1) 2 (nZ 0) (nZ 1) 2 (nZ 0) (nZ 1) 2 : DistOptions spec_float).
  exists (mkFeatures (Some d) false), (run_options 2), (run_chunk_serial None toy_material (run_options 2) 10), run_units, (some_ions 5), d.
  split; [reflexivity|]. split; [reflexivity|]. split; [eexists; vm_compute; reflexivity|vm_compute; reflexivity].
Qed.
Print Assumptions C121_one_energy_bin_refuted.

Definition toy_axes : DistOptions spec_float :=
  mkDistOptions (nZ 0) (nZ 100) 5 (nZ 0) (nZ 90) 4 (nZ 0) (nZ 50) 6 (nZ (-9)) (nZ 9) 3 (nZ (-9)) (nZ 9) 3.
Lemma toy_run_finishes :
  finishes (physics_loop (run_chunk_serial None toy_material (run_options 2) 10) (run_options 2) run_units (some_ions 5)).
Proof. eexists; vm_compute; reflexivity. Qed.
Lemma features_run {F} {NF : Num F} (d : DistOptions F) run options units ions : enough_bins d ->
  finishes (physics_loop run options units ions) ->
  exists out, physics_loop_features (mkFeatures (Some d) true) run options units ions = Ok out /\ oc_list_files out = None.
Proof.
  intros Hd ((s & es) & Hf). pose proof (C121_features_do_not_interfere (mkFeatures (Some d) true) run options units ions) as H.
  rewrite Hf in H. destruct H as (_ & _ & out & _ & _ & H & _ & H2 & _); [intros d' E; injection E as <-; exact Hd|].
  exists out. split; [exact H|exact H2].
Qed.
Example C121_applies :
  enough_bins toy_axes /\
  finishes (physics_loop (run_chunk_serial None toy_material (run_options 2) 10) (run_options 2) run_units (some_ions 5)) /\
  exists out, physics_loop_features (mkFeatures (Some toy_axes) true) (run_chunk_serial None toy_material (run_options 2) 10)
    (run_options 2) run_units (some_ions 5) = Ok out /\ oc_list_files out = None.
Proof.
  assert (He : enough_bins toy_axes) by (unfold enough_bins; cbn; lia).
  split; [exact He|]. split; [exact toy_run_finishes|]. exact (features_run toy_axes _ _ _ _ He toy_run_finishes).
Qed.
