(** * ProofsRun.v - the chunk loop, the summary and the list files *)
From Coq Require Import ZArith List Bool Lia.
From Verif Require Import Num ModelTypes ModelConsts ModelParticle ModelGeometry ModelMaterial ModelBca ModelOutput ModelPhysics
  ProofsBase ProofsInput SpecRun.
Import ListNotations.
Open Scope nat_scope.

(** ** chunks *)
Lemma chunks_fuel_cut {A} n : 0 < n -> forall fuel (l : list A), length l <= fuel -> 0 < length l -> cut n l (chunks_fuel fuel n l).
Proof.
  intros Hn. induction fuel as [|fuel IH]; intros l Hl Hp; [lia|].
  destruct l as [|a l']; [cbn in Hp; lia|]. set (l := a :: l') in *. cbn [chunks_fuel].
  replace (match l with [] => [] | _ :: _ => firstn n l :: chunks_fuel fuel n (skipn n l) end) with (firstn n l :: chunks_fuel fuel n (skipn n l)) by reflexivity.
  destruct (Nat.le_gt_cases (length l) n) as [H|H].
  - rewrite firstn_all2, skipn_all2 by lia. destruct fuel; cbn; apply cut_last; lia.
  - rewrite <- (firstn_skipn n l) at 1. apply cut_more; [rewrite firstn_length; lia|lia|].
    apply IH; rewrite skipn_length; lia.
Qed.
Lemma chunks_cut {A} n (l : list A) : 0 < n -> 0 < length l -> cut n l (chunks n l).
Proof. intros. apply chunks_fuel_cut; auto. Qed.
Lemma cut_concat {A} n (l : list A) cs : cut n l cs -> concat cs = l.
Proof. induction 1; cbn; [apply app_nil_r|congruence]. Qed.
Lemma cut_pieces {A} n (l : list A) cs : cut n l cs -> Forall (fun c => 0 < length c <= n) cs.
Proof. induction 1; constructor; auto; lia. Qed.
Lemma cut_number {A} n (l : list A) cs : cut n l cs -> length cs = (length l + (n - 1)) / n.
Proof.
  induction 1.
  - cbn [length]. apply Nat.div_unique with (r := length l - 1); nia.
  - cbn [length]. rewrite app_length, IHcut, H. replace (n + length l + (n - 1)) with (length l + (n - 1) + 1 * n) by lia.
    rewrite Nat.div_add by lia. lia.
Qed.
Section Run.
  Context {F : Type} {NF : Num F}.

  (** ** the summary *)
  Definition aligned (s : SummaryPerSpecies F) : Prop :=
    length (sp_sputtered s) = length (sp_m s) /\ length (sp_reflected s) = length (sp_m s) /\ length (sp_deposited s) = length (sp_m s).
  Lemma position_eq_some (ms : list F) m : existsb (fun m' => neqb m' m) ms = true -> exists i, position_eq ms m = Some i /\ i < length ms.
  Proof.
    induction ms as [|a ms IH]; cbn; [discriminate|]. destruct (neqb a m) eqn:E; cbn; intros H; [exists 0; split; [auto|lia]|].
    destruct (IH H) as (i & -> & Hi). exists (S i). split; [auto|lia].
  Qed.
  Lemma increment_ok v : forall i, i < length v -> exists w, increment v i = Ok w /\ length w = length v.
  Proof.
    induction v as [|n v IH]; intros i Hi; cbn in Hi; [lia|]. destruct i as [|i]; cbn; [eexists; split; reflexivity|].
    destruct (IH i ltac:(lia)) as (w & -> & Hw). cbn. eexists. split; [reflexivity|]. cbn. lia.
  Qed.
  Lemma sps_update_total s (p : Particle F) : aligned s -> exists s', sps_update s p = Ok s' /\ aligned s'.
  Proof.
    intros (H1 & H2 & H3). unfold sps_update. destruct (existsb _ _) eqn:E.
    - destruct (position_eq_some _ _ E) as (i & -> & Hi).
      destruct (p_incident p), (p_left p).
      + destruct (increment_ok (sp_reflected s) i ltac:(lia)) as (w & -> & Hw). cbn. eexists. split; [reflexivity|]. repeat split; cbn; lia.
      + destruct (increment_ok (sp_deposited s) i ltac:(lia)) as (w & -> & Hw). cbn. eexists. split; [reflexivity|]. repeat split; cbn; lia.
      + destruct (increment_ok (sp_sputtered s) i ltac:(lia)) as (w & -> & Hw). cbn. eexists. split; [reflexivity|]. repeat split; cbn; lia.
      + eexists. split; [reflexivity|]. repeat split; auto.
    - destruct (p_incident p), (p_left p); eexists; (split; [reflexivity|]); repeat split; cbn; rewrite !app_length; cbn; lia.
  Qed.
  Fixpoint sps_updates (s : SummaryPerSpecies F) (ps : list (Particle F)) : Res (SummaryPerSpecies F) :=
    match ps with [] => Ok s | p :: ps' => let! s := sps_update s p in sps_updates s ps' end.
  Lemma sps_updates_total ps : forall s, aligned s -> exists s', sps_updates s ps = Ok s' /\ aligned s'.
  Proof.
    induction ps as [|p ps IH]; intros s Hs; cbn; [eauto|].
    destruct (sps_update_total s p Hs) as (s1 & -> & H1). cbn. auto.
  Qed.
  Lemma sps_updates_app ps ps' : forall s, sps_updates s (ps ++ ps') = (let! s := sps_updates s ps in sps_updates s ps').
  Proof. induction ps as [|p ps IH]; intros s; cbn; [reflexivity|]. destruct (sps_update s p); cbn; auto. Qed.
  Lemma process_particles_eq options units ps : forall s (es : list (Event F)),
    process_particles options units s es ps =
    (let! s := sps_updates s ps in Ok (s, es ++ flat_map (output_lists options units) ps)).
  Proof.
    induction ps as [|p ps IH]; intros s es; cbn [process_particles sps_updates flat_map bind].
    - cbn [bind]. rewrite app_nil_r. reflexivity.
    - destruct (sps_update s p); cbn [bind]; auto. rewrite IH. destruct (sps_updates a ps); cbn [bind]; auto. rewrite <- app_assoc. reflexivity.
  Qed.
  Definition chunk_events (options : Options F) units (ps : list (Particle F)) : list (Event F) :=
    flat_map (output_lists options units) ps ++ output_list_flush.
  Lemma chunk_loop_inv run options units cs : forall s s' es,
    chunk_loop run options units s cs = Ok (s', es) ->
    exists outs, Forall2 (fun c out => run c = Ok out) cs outs /\ sps_updates s (concat outs) = Ok s' /\
                 es = map (chunk_events options units) outs.
  Proof.
    induction cs as [|c cs IH]; intros s s' es; cbn [chunk_loop]; intros H.
    - injection H as <- <-. exists []. repeat split; constructor.
    - apply bind_ok in H. destruct H as (out & Ho & H). apply bind_ok in H. destruct H as ((s1 & e1) & H1 & H).
      apply bind_ok in H. destruct H as ((s2 & rest) & H2 & H). injection H as <- <-.
      unfold process_chunk in H1. rewrite process_particles_eq in H1.
      apply bind_ok in H1. destruct H1 as ((s3 & e3) & H1 & H3). apply bind_ok in H1. destruct H1 as (s4 & H4 & H5).
      injection H5 as <- <-. injection H3 as <- <-.
      destruct (IH _ _ _ H2) as (outs & Hr & Hu & ->). exists (out :: outs). split; [constructor; auto|]. split; [|reflexivity].
      cbn [concat]. rewrite sps_updates_app, H4. exact Hu.
  Qed.
  Lemma chunk_loop_run run options units cs : forall s outs, aligned s ->
    Forall2 (fun c out => run c = Ok out) cs outs ->
    exists s', chunk_loop run options units s cs = Ok (s', map (chunk_events options units) outs) /\ sps_updates s (concat outs) = Ok s'.
  Proof.
    intros s outs Ha H. revert s Ha. induction H as [|c out cs outs Hc Hr IH]; intros s Ha.
    - exists s. split; reflexivity.
    - cbn [chunk_loop]. rewrite Hc. cbn [bind]. unfold process_chunk. rewrite process_particles_eq.
      destruct (sps_updates_total out s Ha) as (s1 & H1 & A1). rewrite H1. cbn [bind].
      destruct (IH s1 A1) as (s' & E & U). rewrite E. cbn [bind]. exists s'. split; [reflexivity|].
      cbn [concat]. rewrite sps_updates_app, H1. exact U.
  Qed.
  Lemma chunk_loop_ext run run' options units cs : (forall c, In c cs -> run c = run' c) -> forall s,
    chunk_loop run options units s cs = chunk_loop run' options units s cs.
  Proof.
    induction cs as [|c cs IH]; intros H s; cbn [chunk_loop]; [reflexivity|].
    rewrite (H c) by (left; auto). destruct (run' c); cbn [bind]; auto. destruct (process_chunk _ _ _ _) as [[s1 e1]| |]; cbn [bind]; auto.
    rewrite IH; auto. intros; apply H; right; auto.
  Qed.
  Lemma aligned_new : aligned (@sps_new F).
  Proof. repeat split. Qed.

  (** ** counting *)
  Lemma count_app {A} (t : A -> bool) l l' : count t (l ++ l') = count t l + count t l'.
  Proof. unfold count. rewrite filter_app, app_length. reflexivity. Qed.
  Lemma first_seen_in {A} (eqb : A -> A -> bool) l x : In x (first_seen eqb l) -> In x l.
  Proof.
    induction l as [|a l IH]; cbn; [auto|]. intros [H|H]; auto. apply filter_In in H. tauto.
  Qed.
  Definition decides {A} (eqb : A -> A -> bool) (l : list A) := forall x y, In x l -> In y l -> (eqb x y = true <-> x = y).
  Lemma first_seen_all {A} (eqb : A -> A -> bool) l : decides eqb l -> forall x, In x l -> In x (first_seen eqb l).
  Proof.
    induction l as [|a l IH]; intros D x Hx; [destruct Hx|]. destruct Hx as [->|Hx]; [left; auto|].
    cbn. destruct (eqb a x) eqn:E.
    - left. apply D in E; auto; [left; auto|right; auto].
    - right. apply filter_In. split; [apply IH; auto; intros u v Hu Hv; apply D; right; auto|rewrite E; reflexivity].
  Qed.
  Lemma first_seen_nodup {A} (eqb : A -> A -> bool) l : decides eqb l -> NoDup (first_seen eqb l).
  Proof.
    induction l as [|a l IH]; intros D; [constructor|]. cbn. constructor.
    - rewrite filter_In. intros (H & E). assert (eqb a a = true) as R by (apply D; [left|left|]; auto). rewrite R in E. discriminate.
    - apply NoDup_filter. apply IH. intros u v Hu Hv; apply D; right; auto.
  Qed.
  Lemma filter_filter_comm {A} (f g : A -> bool) l : filter f (filter g l) = filter g (filter f l).
  Proof. induction l as [|a l IH]; cbn; auto. destruct (f a) eqn:Ef, (g a) eqn:Eg; cbn; rewrite ?Ef, ?Eg, IH; auto. Qed.
  Lemma first_seen_snoc {A} (eqb : A -> A -> bool) l x : decides eqb (l ++ [x]) ->
    first_seen eqb (l ++ [x]) = if existsb (fun y => eqb y x) (first_seen eqb l) then first_seen eqb l else first_seen eqb l ++ [x].
  Proof.
    induction l as [|a l IH]; intros D; [reflexivity|]. cbn [first_seen app existsb].
    rewrite IH by (intros u v Hu Hv; apply D; right; auto). destruct (eqb a x) eqn:E; cbn [orb].
    - (* a equals x *)
      f_equal. destruct (existsb _ (first_seen eqb l)) eqn:E2; [reflexivity|]. rewrite filter_app. cbn. rewrite E. cbn. apply app_nil_r.
    - replace (existsb (fun y => eqb y x) (filter (fun y => negb (eqb a y)) (first_seen eqb l)))
        with (existsb (fun y => eqb y x) (first_seen eqb l)).
      + destruct (existsb _ _); auto. rewrite filter_app. cbn. rewrite E. cbn. reflexivity.
      + apply eq_true_iff_eq. rewrite !existsb_exists. split.
        * intros (y & Hy & Ey). exists y. split; auto. apply filter_In. split; auto. apply first_seen_in in Hy.
          assert (y = x) by (apply D in Ey; auto; [right; apply in_or_app; auto|right; apply in_or_app; right; left; auto]). subst. rewrite E. auto.
        * intros (y & Hy & Ey). apply filter_In in Hy. exists y. tauto.
  Qed.

  Definition describes (s : SummaryPerSpecies F) (ps : list (Particle F)) : Prop :=
    sp_m s = first_seen neqb (map (@p_m F) ps) /\
    sp_reflected s = map (fun m => count (fun p => of_mass m p && reflected p) ps) (sp_m s) /\
    sp_sputtered s = map (fun m => count (fun p => of_mass m p && sputtered p) ps) (sp_m s) /\
    sp_deposited s = map (fun m => count (fun p => of_mass m p && not_reflected p) ps) (sp_m s).

  Lemma increment_map (g g' : F -> nat) ms : forall m i, position_eq ms m = Some i ->
    (forall m', In m' ms -> neqb m' m = true -> m' = m) -> NoDup ms ->
    (forall m', In m' ms -> m' <> m -> g' m' = g m') -> g' m = S (g m) ->
    increment (map g ms) i = Ok (map g' ms).
  Proof.
    induction ms as [|a ms IH]; intros m i H Heq Hnd Hne Hm; [discriminate|]. cbn in H. inversion Hnd as [|? ? Hna Hnd']; subst.
    destruct (neqb a m) eqn:E.
    - injection H as <-. assert (a = m) by (apply Heq; [left; auto|auto]). subst a. cbn. rewrite Hm. f_equal. f_equal.
      apply map_ext_in. intros m' Hm'. symmetry. apply Hne; [right; auto|]. intros ->. contradiction.
    - destruct (position_eq ms m) as [j|] eqn:Ej; [|discriminate]. injection H as <-. cbn.
      erewrite IH; eauto; cbn.
      + rewrite Hne; auto; [left; auto|]. intros ->.
        assert (Hin : exists m', In m' ms /\ neqb m' m = true).
        { clear -Ej. revert j Ej. induction ms as [|b ms IH]; intros j Ej; [discriminate|]. cbn in Ej.
          destruct (neqb b m) eqn:Eb; [exists b; split; [left; auto|auto]|].
          destruct (position_eq ms m) as [k|] eqn:Ek; [|discriminate]. destruct (IH k eq_refl) as (m' & ? & ?). exists m'. split; [right; auto|auto]. }
        destruct Hin as (m' & Hi & Em). assert (m' = m) by (apply Heq; [right; auto|auto]). subst. contradiction.
      + intros m' Hm'. apply Heq. right; auto.
      + intros m' Hm'. apply Hne. right; auto.
  Qed.

  Lemma describes_step s ps p s' : describes s ps -> masses_comparable (ps ++ [p]) -> sps_update s p = Ok s' -> describes s' (ps ++ [p]).
  Proof.
    intros (Dm & Dr & Ds & Dd) Hc H.
    assert (D : decides neqb (map (@p_m F) (ps ++ [p]))).
    { intros x y Hx Hy. apply in_map_iff in Hx, Hy. destruct Hx as (p1 & <- & H1), Hy as (p2 & <- & H2). apply Hc; auto. }
    assert (Dps : decides neqb (map (@p_m F) ps)).
    { intros x y Hx Hy. apply D; rewrite map_app; apply in_or_app; auto. }
    assert (Hself : neqb (p_m p) (p_m p) = true) by (apply Hc; auto; apply in_or_app; right; left; auto).
    assert (Hin : forall m, In m (sp_m s) -> In m (map (@p_m F) ps)) by (intros m Hm; rewrite Dm in Hm; eapply first_seen_in; eauto).
    assert (Heq : forall m, In m (sp_m s) -> neqb m (p_m p) = true -> m = p_m p).
    { intros m Hm E. apply D in E; auto; rewrite map_app; apply in_or_app; [left; auto|right; left; auto]. }
    assert (Hnew : forall m (t : Particle F -> bool), count (fun q => of_mass m q && t q) (ps ++ [p])
               = count (fun q => of_mass m q && t q) ps + (if neqb m (p_m p) && t p then 1 else 0)).
    { intros m t. rewrite count_app. f_equal. unfold count. cbn. unfold of_mass. destruct (_ && _); reflexivity. }
    assert (Hne : forall m, In m (sp_m s) -> m <> p_m p -> forall t : Particle F -> bool, count (fun q => of_mass m q && t q) (ps ++ [p])
               = count (fun q => of_mass m q && t q) ps).
    { intros m Hm Hd t. rewrite Hnew. destruct (neqb m (p_m p)) eqn:E; [|cbn; lia]. elim Hd. auto. }
    assert (Hsame : forall t : Particle F -> bool, t p = false -> forall l, map (fun m => count (fun q => of_mass m q && t q) (ps ++ [p])) l = map (fun m => count (fun q => of_mass m q && t q) ps) l).
    { intros t Ht l. apply map_ext. intros m. rewrite Hnew, Ht, andb_false_r. lia. }
    assert (Hms : first_seen neqb (map (@p_m F) (ps ++ [p])) = if existsb (fun m => neqb m (p_m p)) (sp_m s) then sp_m s else sp_m s ++ [p_m p]).
    { rewrite map_app. cbn. rewrite first_seen_snoc, <- Dm; [reflexivity|]. rewrite map_app in D. exact D. }
    unfold sps_update in H. destruct (existsb _ (sp_m s)) eqn:Ex.
    - destruct (position_eq_some _ _ Ex) as (i & Hi & _). rewrite Hi in H.
      assert (Hnd : NoDup (sp_m s)) by (rewrite Dm; apply first_seen_nodup; auto).
      assert (Hinc : forall t : Particle F -> bool, t p = true ->
         increment (map (fun m => count (fun q => of_mass m q && t q) ps) (sp_m s)) i
         = Ok (map (fun m => count (fun q => of_mass m q && t q) (ps ++ [p])) (sp_m s))).
      { intros t Ht. apply (increment_map _ _ _ (p_m p)); auto. rewrite Hnew, Hself, Ht. cbn. lia. }
      destruct (p_incident p) eqn:Ei, (p_left p) eqn:El.
      + rewrite Dr, Hinc in H by (unfold reflected; rewrite Ei, El; auto). cbn in H. injection H as <-. unfold describes; cbn.
        rewrite Hms, Ds, Dd, (Hsame sputtered), (Hsame not_reflected) by (unfold sputtered, not_reflected; rewrite Ei, El; auto). repeat split.
      + rewrite Dd, Hinc in H by (unfold not_reflected; rewrite Ei, El; auto). cbn in H. injection H as <-. unfold describes; cbn.
        rewrite Hms, Ds, Dr, (Hsame sputtered), (Hsame reflected) by (unfold sputtered, reflected; rewrite Ei, El; auto). repeat split.
      + rewrite Ds, Hinc in H by (unfold sputtered; rewrite Ei, El; auto). cbn in H. injection H as <-. unfold describes; cbn.
        rewrite Hms, Dd, Dr, (Hsame not_reflected), (Hsame reflected) by (unfold not_reflected, reflected; rewrite Ei, El; auto). repeat split.
      + injection H as <-. unfold describes. rewrite Hms, Ds, Dr, Dd, (Hsame sputtered), (Hsame reflected), (Hsame not_reflected) by (unfold sputtered, not_reflected, reflected; rewrite Ei, El; auto). repeat split.
    - assert (Hz : forall t : Particle F -> bool, count (fun q => of_mass (p_m p) q && t q) (ps ++ [p]) = if t p then 1 else 0).
      { intros t. rewrite Hnew, Hself. cbn. replace (count _ ps) with 0; [reflexivity|]. symmetry. unfold count.
        rewrite (proj2 (length_zero_iff_nil _)); [reflexivity|].
        destruct (filter _ ps) as [|q l] eqn:Ef; [reflexivity|]. exfalso.
        assert (Hq : In q (filter (fun q => of_mass (p_m p) q && t q) ps)) by (rewrite Ef; left; auto).
        apply filter_In in Hq. destruct Hq as (Hq & Eq). apply andb_prop in Eq. destruct Eq as (Eq & _). unfold of_mass in Eq.
        assert (p_m p = p_m q) by (apply Hc; auto; apply in_or_app; [right; left; auto|left; auto]).
        assert (In (p_m q) (sp_m s)) by (rewrite Dm; apply first_seen_all; auto; apply in_map; auto).
        assert (existsb (fun m => neqb m (p_m p)) (sp_m s) = true) by (apply existsb_exists; exists (p_m q); split; auto; congruence).
        congruence. }
      assert (Hold : forall t : Particle F -> bool, map (fun m => count (fun q => of_mass m q && t q) ps) (sp_m s) = map (fun m => count (fun q => of_mass m q && t q) (ps ++ [p])) (sp_m s)).
      { intros t. apply map_ext_in. intros m Hm. symmetry. apply Hne; auto. intros ->.
        assert (existsb (fun m => neqb m (p_m p)) (sp_m s) = true) by (apply existsb_exists; exists (p_m p); auto). congruence. }
      destruct (p_incident p) eqn:Ei, (p_left p) eqn:El; injection H as <-; unfold describes; cbn [sp_m sp_reflected sp_sputtered sp_deposited];
        rewrite Hms, Dr, Ds, Dd, !Hold, !map_app; cbn [map]; rewrite !Hz; unfold sputtered, not_reflected, reflected; rewrite Ei, El; cbn; repeat split.
  Qed.
  Lemma describes_updates ps' : forall s ps s', describes s ps -> masses_comparable (ps ++ ps') -> sps_updates s ps' = Ok s' -> describes s' (ps ++ ps').
  Proof.
    induction ps' as [|p ps' IH]; intros s ps s' D Hc H; cbn in H; [injection H as <-; rewrite app_nil_r; auto|].
    apply bind_ok in H. destruct H as (s1 & H1 & H). change (p :: ps') with ([p] ++ ps') in *. rewrite app_assoc in *.
    eapply IH; eauto. eapply describes_step; eauto. intros a b Ha Hb. apply Hc; apply in_or_app; auto.
  Qed.
  Lemma describes_new : describes (@sps_new F) [].
  Proof. repeat split. Qed.
  Lemma sps_print_describes s ps units : describes s ps ->
    sps_print s units = map (fun m => (ndiv m (ou_mass_unit units), count (fun p => of_mass m p && reflected p) ps,
        count (fun p => of_mass m p && sputtered p) ps, count (fun p => of_mass m p && not_reflected p) ps)) (first_seen neqb (map (@p_m F) ps)).
  Proof.
    intros (Dm & Dr & Ds & Dd). unfold sps_print, zip. rewrite Dr, Ds, Dd, <- Dm. clear.
    induction (sp_m s) as [|m ms IH]; [reflexivity|]. cbn. f_equal. exact IH.
  Qed.

  (** totals *)
  Definition total (l : list nat) : nat := fold_right Nat.add 0 l.
  Lemma total_app l l' : total (l ++ l') = total l + total l'.
  Proof. unfold total. induction l as [|a l IH]; cbn; auto. rewrite IH. lia. Qed.
  Lemma increment_total v : forall i w, increment v i = Ok w -> total w = S (total v).
  Proof.
    induction v as [|n v IH]; intros i w H; [discriminate|]. destruct i as [|i]; cbn in H; [injection H as <-; cbn; lia|].
    apply bind_ok in H. destruct H as (x & Hx & H). injection H as <-. apply IH in Hx. unfold total in *. cbn. lia.
  Qed.
  Lemma sps_update_total_counts s (p : Particle F) s' : sps_update s p = Ok s' ->
    total (sp_reflected s') = total (sp_reflected s) + (if reflected p then 1 else 0) /\
    total (sp_sputtered s') = total (sp_sputtered s) + (if sputtered p then 1 else 0) /\
    total (sp_deposited s') = total (sp_deposited s) + (if not_reflected p then 1 else 0).
  Proof.
    unfold sps_update, reflected, sputtered, not_reflected. destruct (existsb _ _).
    - destruct (position_eq _ _); [|discriminate]. destruct (p_incident p), (p_left p); cbn [andb negb]; intros H.
      1-3: apply bind_ok in H; destruct H as (w & Hw & H); injection H as <-; cbn [sp_reflected sp_sputtered sp_deposited]; apply increment_total in Hw; lia.
      injection H as <-. lia.
    - destruct (p_incident p), (p_left p); cbn [andb negb]; intros H; injection H as <-; cbn [sp_reflected sp_sputtered sp_deposited];
      rewrite !total_app; cbn; lia.
  Qed.
  Lemma sps_updates_total_counts ps : forall s s', sps_updates s ps = Ok s' ->
    total (sp_reflected s') = total (sp_reflected s) + count reflected ps /\
    total (sp_sputtered s') = total (sp_sputtered s) + count sputtered ps /\
    total (sp_deposited s') = total (sp_deposited s) + count not_reflected ps.
  Proof.
    induction ps as [|p ps IH]; intros s s' H; cbn in H; [injection H as <-; cbn; lia|].
    apply bind_ok in H. destruct H as (s1 & H1 & H). apply sps_update_total_counts in H1. apply IH in H. unfold count in *. cbn.
    destruct (reflected p), (sputtered p), (not_reflected p); cbn in *; lia.
  Qed.

  (** ** rows *)
  Lemma rows_app f (es es' : list (Event F)) : rows_of f (es ++ es') = rows_of f es ++ rows_of f es'.
  Proof. apply flat_map_app. Qed.
  Lemma rows_flush f : rows_of f (@output_list_flush F) = [].
  Proof. reflexivity. Qed.
  Lemma rows_flat_map {A} f (g : A -> list (Event F)) l : rows_of f (flat_map g l) = flat_map (fun a => rows_of f (g a)) l.
  Proof. induction l as [|a l IH]; cbn [flat_map]; auto. rewrite rows_app, IH. reflexivity. Qed.
  Lemma rows_chunk f options units (ps : list (Particle F)) : rows_of f (chunk_events options units ps) = flat_map (fun p => rows_of f (output_lists options units p)) ps.
  Proof. unfold chunk_events. rewrite rows_app, rows_flush, app_nil_r, rows_flat_map. reflexivity. Qed.
  Lemma rows_run f options units (outs : list (list (Particle F))) :
    rows_of f (concat (map (chunk_events options units) outs)) = flat_map (fun p => rows_of f (output_lists options units p)) (concat outs).
  Proof. induction outs as [|o outs IH]; cbn [map concat]; [reflexivity|]. rewrite rows_app, rows_chunk, IH, flat_map_app. reflexivity. Qed.
  Lemma flat_map_filter {A B} (t : A -> bool) (g : A -> B) l : flat_map (fun a => if t a then [g a] else []) l = map g (filter t l).
  Proof. induction l as [|a l IH]; cbn; auto. destruct (t a); cbn; rewrite IH; auto. Qed.
  Lemma flat_map_filter_list {A B} (t : A -> bool) (g : A -> list B) l : flat_map (fun a => if t a then g a else []) l = flat_map g (filter t l).
  Proof. induction l as [|a l IH]; cbn; auto. destruct (t a); cbn; rewrite IH; auto. Qed.
  Lemma rows_map_write f g (h : TrajectoryElement F -> Row F) l : rows_of f (map (fun x => Write g (h x)) l) = if File_eqb g f then map h l else [].
  Proof. unfold rows_of in *. induction l as [|a l IH]; cbn in *; [destruct (File_eqb g f); auto|]. rewrite IH. destruct (File_eqb g f); reflexivity. Qed.
  Lemma rows_map_write' f g (h : EnergyLoss F -> Row F) l : rows_of f (map (fun x => Write g (h x)) l) = if File_eqb g f then map h l else [].
  Proof. unfold rows_of in *. induction l as [|a l IH]; cbn in *; [destruct (File_eqb g f); auto|]. rewrite IH. destruct (File_eqb g f); reflexivity. Qed.
  Lemma rows_if (b : bool) f (e : list (Event F)) : rows_of f (if b then e else []) = if b then rows_of f e else [].
  Proof. destruct b; reflexivity. Qed.
  Lemma rows_one f g (r : Row F) : rows_of f [Write g r] = if File_eqb g f then [r] else [].
  Proof. cbn. apply app_nil_r. Qed.
  Lemma rows_cons f g (r : Row F) es : rows_of f (Write g r :: es) = (if File_eqb g f then [r] else []) ++ rows_of f es.
  Proof. reflexivity. Qed.
  Lemma output_lists_rows options units (p : Particle F) f :
    rows_of f (output_lists options units p) =
    match f with
    | Reflected => if reflected p then [reflected_row units p] else []
    | Sputtered => if sputtered p then [sputtered_row units p] else []
    | Deposited => if deposited p then [deposited_row units p] else []
    | Displacements => if displaced p && o_track_displacements options then [displaced_row units p] else []
    | Trajectories => if p_track_trajectories p then trajectory_rows units p else []
    | TrajectoryData => if p_track_trajectories p then [[CN (length (p_trajectory p))]] else []
    | EnergyLosses => if p_incident p && o_track_energy_losses options then energy_loss_rows units p else []
    end.
  Proof.
    unfold output_lists. cbv zeta. rewrite !rows_app, !rows_if, !rows_one, rows_cons, rows_map_write, rows_map_write'.
    unfold reflected, sputtered, deposited, displaced, trajectory_rows, energy_loss_rows.
    assert (Hd : negb (p_incident p) && o_track_displacements options && nlt (p_Ed p) (p_energy_origin p) = negb (p_incident p) && nlt (p_Ed p) (p_energy_origin p) && o_track_displacements options)
      by (rewrite <- !andb_assoc; f_equal; apply andb_comm).
    rewrite Hd.
    destruct f; cbn [File_eqb app];
    repeat match goal with |- context [if ?b then @nil (Row F) else @nil (Row F)] => replace (if b then @nil (Row F) else @nil (Row F)) with (@nil (Row F)) by (destruct b; reflexivity) end;
    cbn [app]; rewrite ?app_nil_r; try reflexivity.
  Qed.

  (** ** crash safety *)
  Lemma File_eqb_eq a b : File_eqb a b = true <-> a = b.
  Proof. destruct a, b; cbn; split; intros; congruence. Qed.
  Lemma File_eqb_refl a : File_eqb a a = true.
  Proof. destruct a; reflexivity. Qed.
  Lemma run_events_app (es es' : list (Event F)) : forall s s'', run_events s (es ++ es') s'' <-> exists s', run_events s es s' /\ run_events s' es' s''.
  Proof.
    induction es as [|e es IH]; intros s s''; cbn.
    - split; [intros H; exists s; split; [constructor|auto]|]. intros (s' & H & H'). inversion H; subst. auto.
    - split.
      + intros H. inversion H; subst. apply IH in H5. destruct H5 as (s2 & H2 & H5). exists s2. split; auto. econstructor; eauto.
      + intros (s' & H & H'). inversion H; subst. econstructor; eauto. apply IH. eauto.
  Qed.
  Lemma step_complete s e s' f : @step_event F s e s' ->
    on_disk (s' f) ++ in_buffer (s' f) = (on_disk (s f) ++ in_buffer (s f)) ++ rows_of f [e] /\ prefix (on_disk (s f)) (on_disk (s' f)).
  Proof.
    intros H. inversion H; subst; unfold upd_stream; cbn.
    - destruct (File_eqb f0 f) eqn:E; cbn; [|rewrite app_nil_r; split; [auto|exists []; rewrite app_nil_r; auto]].
      apply File_eqb_eq in E. subst. split; [|exists spilled; auto]. rewrite <- !app_assoc, H0. reflexivity.
    - destruct (File_eqb f0 f) eqn:E; cbn; rewrite ?app_nil_r; [|split; [auto|exists []; rewrite app_nil_r; auto]].
      apply File_eqb_eq in E. subst. split; [auto|eexists; eauto].
  Qed.
  Lemma run_complete es f : forall s s', @run_events F s es s' ->
    on_disk (s' f) ++ in_buffer (s' f) = (on_disk (s f) ++ in_buffer (s f)) ++ rows_of f es /\ prefix (on_disk (s f)) (on_disk (s' f)).
  Proof.
    induction es as [|e es IH]; intros s s' H; inversion H; subst.
    - cbn. rewrite app_nil_r. split; [auto|exists []; rewrite app_nil_r; auto].
    - destruct (step_complete _ _ _ f H3) as (C1 & (r1 & P1)). destruct (IH _ _ H5) as (C2 & (r2 & P2)). split.
      + rewrite C2, C1. change (e :: es) with ([e] ++ es). rewrite rows_app, app_assoc. reflexivity.
      + exists (r1 ++ r2). rewrite P2, P1, app_assoc. reflexivity.
  Qed.
  Lemma flush_one es f : In (Flush f) es -> rows_of f es = [] -> forall s s', @run_events F s es s' -> in_buffer (s' f) = [].
  Proof.
    induction es as [|e es IH]; intros Hin Hr s s' H; [destruct Hin|]. inversion H; subst.
    change (e :: es) with ([e] ++ es) in Hr. rewrite rows_app in Hr. apply app_eq_nil in Hr. destruct Hr as (Hr1 & Hr2).
    destruct Hin as [->|Hin]; [|eauto].
    assert (Hb : in_buffer (s'0 f) = []) by (inversion H3; subst; unfold upd_stream; rewrite File_eqb_refl; reflexivity).
    clear IH Hr1 H3 H. revert s'0 Hb H5. induction es as [|e' es IH]; intros s0 Hb H; inversion H; subst; auto.
    change (e' :: es) with ([e'] ++ es) in Hr2. rewrite rows_app in Hr2. apply app_eq_nil in Hr2. destruct Hr2 as (Ha & Hc).
    apply (IH Hc s'0); auto. inversion H3; subst; unfold upd_stream; cbn in *;
      destruct (File_eqb f0 f); first [discriminate|auto].
  Qed.
  Lemma chunk_on_disk options units (ps : list (Particle F)) f s s' : f <> EnergyLosses ->
    run_events s (chunk_events options units ps) s' ->
    on_disk (s' f) = (on_disk (s f) ++ in_buffer (s f)) ++ rows_of f (chunk_events options units ps) /\ in_buffer (s' f) = [].
  Proof.
    intros Hf H. destruct (run_complete _ f _ _ H) as (C & _). unfold chunk_events in H. apply run_events_app in H. destruct H as (s1 & _ & H2).
    assert (in_buffer (s' f) = []) as E.
    { eapply flush_one; [|apply rows_flush|exact H2]. destruct f; cbn; tauto. }
    rewrite E, app_nil_r in C. split; auto.
  Qed.
  Lemma chunks_on_disk options units f (outs : list (list (Particle F))) : f <> EnergyLosses -> forall s s',
    in_buffer (s f) = [] -> run_events s (concat (map (chunk_events options units) outs)) s' ->
    on_disk (s' f) = on_disk (s f) ++ rows_of f (concat (map (chunk_events options units) outs)) /\ in_buffer (s' f) = [].
  Proof.
    intros Hf. induction outs as [|o outs IH]; intros s s' Hb H; cbn [map concat] in *.
    - inversion H; subst. cbn. rewrite app_nil_r. auto.
    - apply run_events_app in H. destruct H as (s1 & H1 & H2). destruct (chunk_on_disk _ _ _ _ _ _ Hf H1) as (D1 & B1).
      destruct (IH _ _ B1 H2) as (D2 & B2). split; auto. rewrite D2, D1, Hb, rows_app, app_nil_r, app_assoc. reflexivity.
  Qed.
  Lemma lazy_run (es : list (Event F)) f : ~ In (Flush f) es -> forall s, on_disk (s f) = [] -> exists s', run_events s es s' /\ on_disk (s' f) = [].
  Proof.
    induction es as [|e es IH]; intros Hn s Hs; [exists s; split; [constructor|auto]|].
    assert (exists s1, step_event s e s1 /\ on_disk (s1 f) = []) as (s1 & H1 & D1).
    { destruct e as [g r|g].
      - exists (upd_stream s g (mkStream (on_disk (s g) ++ []) (in_buffer (s g) ++ [r]))). split; [constructor; auto|]. unfold upd_stream.
        destruct (File_eqb g f) eqn:E; cbn; auto. apply File_eqb_eq in E. subst. rewrite Hs. auto.
      - eexists. split; [constructor|]. unfold upd_stream. destruct (File_eqb g f) eqn:E; auto. apply File_eqb_eq in E. subst. elim Hn. left; auto. }
    destruct (IH ltac:(intros ?; apply Hn; right; auto) s1 D1) as (s' & H2 & D2). exists s'. split; auto. econstructor; eauto.
  Qed.

  (** ** parallel runs *)
  Lemma run_chunk_serial_app build mat options fuel (l l' : list (Ion F)) :
    run_chunk_serial build mat options fuel (l ++ l') =
    (let! a := run_chunk_serial build mat options fuel l in let! b := run_chunk_serial build mat options fuel l' in Ok (a ++ b)).
  Proof.
    unfold run_chunk_serial. rewrite mapM_app. destruct (mapM _ l); cbn [bind]; auto. destruct (mapM _ l'); cbn [bind]; auto. rewrite concat_app. reflexivity.
  Qed.
  Lemma parallel_serial build mat options fuel (t : Split (Ion F)) :
    run_chunk_parallel build mat options fuel t = run_chunk_serial build mat options fuel (split_leaves t).
  Proof.
    induction t as [l|l IHl r IHr]; cbn [run_chunk_parallel split_leaves]; auto. rewrite run_chunk_serial_app, IHl, IHr. reflexivity.
  Qed.
End Run.
