(** * ProofsValid.v *)
From Coq Require Import ZArith List Bool Arith Lia.
From Verif Require Import Num ModelTypes ModelGeometry ModelMaterial ModelInput ProofsBase SpecValid.
Import ListNotations.
Open Scope nat_scope.

Definition good {A} (r : Res A) : Prop := exists a, r = Ok a.
Lemma good_ok {A} (a : A) : good (Ok a). Proof. eexists. reflexivity. Qed.
Lemma good_assert b : good (rassert b) <-> b = true.
Proof. split; [intros (u & H); exact (rassert_ok _ _ H)|intros ->; eexists; reflexivity]. Qed.
Lemma good_bind {A B} (m : Res A) (f : A -> Res B) : good (bind m f) <-> exists a, m = Ok a /\ good (f a).
Proof.
  split.
  - intros (b & H). apply bind_ok in H. destruct H as (a & H1 & H2). exists a. split; [exact H1|]. exists b. exact H2.
  - intros (a & -> & H). exact H.
Qed.
(** the second step does not depend on the value *)
Lemma good_seq {A B} (m : Res A) (f : A -> Res B) P Q : (good m <-> P) -> (forall a, good (f a) <-> Q) -> (good (bind m f) <-> P /\ Q).
Proof.
  intros H1 H2. rewrite good_bind. split.
  - intros (a & Ha & Hf). split; [apply H1; exists a; exact Ha|apply (H2 a); exact Hf].
  - intros (HP & HQ). apply H1 in HP. destruct HP as (a & Ha). exists a. split; [exact Ha|apply H2; exact HQ].
Qed.
Lemma good_idx {A} (l : list A) i : good (idx l i) <-> i < length l.
Proof.
  unfold idx, good. split.
  - intros (a & H). apply nth_error_Some. destruct (nth_error l i); congruence.
  - intro H. apply nth_error_Some in H. destruct (nth_error l i); [eexists; reflexivity|contradiction].
Qed.
Lemma idx_eq {A} (l : list A) i a : idx l i = Ok a <-> nth_error l i = Some a.
Proof. unfold idx. split; destruct (nth_error l i); congruence. Qed.
Lemma good_mapM {A B} (f : A -> Res B) l : good (mapM f l) <-> forall a, In a l -> good (f a).
Proof.
  induction l as [|a l IH]; cbn [mapM].
  - split; [intros _ a []|intros _; apply good_ok].
  - rewrite (good_seq _ _ (good (f a)) (forall a, In a l -> good (f a))).
    + split; [intros (H1 & H2) b [<-|Hb]; auto|]. intro H. split; [apply H; left; reflexivity|intros b Hb; apply H; right; exact Hb].
    + tauto.
    + intro b. rewrite (good_seq _ _ (forall a, In a l -> good (f a)) True); [tauto|exact IH|]. intros bs. split; [intros _; exact I|intros _; apply good_ok].
Qed.
Lemma good_unit {A} (m : Res A) : good (bind m (fun _ => Ok tt)) <-> good m.
Proof. rewrite (good_seq m _ (good m) True); [tauto|tauto|]. intros a. split; [intros _; exact I|intros _; apply good_ok]. Qed.
Lemma good_tt (m : Res unit) : good m <-> m = Ok tt.
Proof. split; [intros ([] & H); exact H|intros ->; apply good_ok]. Qed.

Definition mgood {F A} (m : M F A) (rng : Rng F) (n : nat) : Prop := exists a k, m rng n = Ok (a, k).
Lemma mgood_bind {F A B} (m : M F A) (f : A -> M F B) rng n : mgood (mbind m f) rng n <-> exists a k, m rng n = Ok (a, k) /\ mgood (f a) rng k.
Proof.
  split.
  - intros (b & k' & H). apply mbind_ok in H. destruct H as (a & k & H1 & H2). exists a, k. split; [exact H1|]. exists b, k'. exact H2.
  - intros (a & k & H & b & k' & H2). exists b, k'. unfold mbind. rewrite H. exact H2.
Qed.
Lemma mgood_seq {F A B} (m : M F A) (f : A -> M F B) rng n P Q :
  (mgood m rng n <-> P) -> (forall a k, mgood (f a) rng k <-> Q) -> (mgood (mbind m f) rng n <-> P /\ Q).
Proof.
  intros H1 H2. rewrite mgood_bind. split.
  - intros (a & k & Ha & Hf). split; [apply H1; exists a, k; exact Ha|apply (H2 a k); exact Hf].
  - intros (HP & HQ). apply H1 in HP. destruct HP as (a & k & Ha). exists a, k. split; [exact Ha|apply H2; exact HQ].
Qed.
Lemma mgood_lift {F A} (r : Res A) (rng : Rng F) n : mgood (mlift r) rng n <-> good r.
Proof.
  split.
  - intros (a & k & H). apply mlift_ok in H. destruct H as (H & _). exists a. exact H.
  - intros (a & ->). exists a, n. reflexivity.
Qed.
Lemma mgood_ret {F A} (a : A) (rng : Rng F) n : mgood (mret a) rng n <-> True.
Proof. split; [intros _; exact I|intros _; exists a, n; reflexivity]. Qed.
Lemma mgood_random {F} (rng : Rng F) n : mgood mrandom rng n <-> True.
Proof. split; [intros _; exact I|intros _]. unfold mgood, mrandom. do 2 eexists. reflexivity. Qed.
Lemma mgood_then {F A B} (m : M F A) (f : A -> M F B) rng n P Q :
  (mgood m rng n <-> P) -> (P -> forall a k, mgood (f a) rng k <-> Q) -> (mgood (mbind m f) rng n <-> P /\ Q).
Proof.
  intros H1 H2. rewrite mgood_bind. split.
  - intros (a & k & Ha & Hf). assert (HP : P) by (apply H1; exists a, k; exact Ha). split; [exact HP|apply (H2 HP a k); exact Hf].
  - intros (HP & HQ). pose proof HP as HP0. apply H1 in HP. destruct HP as (a & k & Ha). exists a, k. split; [exact Ha|apply H2; assumption].
Qed.
(** a lifted step whose value matters *)
Lemma mgood_value {F A B} (r : Res A) (f : A -> M F B) rng n : mgood (mbind (mlift r) f) rng n <-> exists a, r = Ok a /\ mgood (f a) rng n.
Proof.
  rewrite mgood_bind. split.
  - intros (a & k & H & Hf). apply mlift_ok in H. destruct H as (H & ->). exists a. split; [exact H|exact Hf].
  - intros (a & -> & H). exists a, n. split; [reflexivity|exact H].
Qed.

Section Valid.
  Context {F : Type} {NF : Num F}.
  (** ** options *)
  Lemma free_flight_iff (o : Options F) : good (check_free_flight o) <->
    (o_high_energy_free_flight_paths o = true -> o_electronic_stopping_mode o = INTERPOLATED /\ o_weak_collision_order o = 0).
  Proof.
    unfold check_free_flight. destruct (o_high_energy_free_flight_paths o).
    - rewrite (good_seq _ _ (o_electronic_stopping_mode o = INTERPOLATED) (o_weak_collision_order o = 0)).
      + tauto.
      + rewrite good_assert. destruct (o_electronic_stopping_mode o); cbn; split; congruence.
      + intros a. rewrite good_assert. apply Nat.eqb_eq.
    - split; [discriminate|intros _; apply good_ok].
  Qed.
  Lemma gaseous_iff (o : Options F) : good (check_gaseous o) <-> (o_mean_free_path_model o = GASEOUS -> o_weak_collision_order o = 0).
  Proof.
    unfold check_gaseous. destruct (o_mean_free_path_model o).
    all: try (split; [discriminate|intros _; apply good_ok]). rewrite good_assert, Nat.eqb_eq. tauto.
  Qed.
  Lemma row_iff {A} (t : list (list A)) i (f : Res unit) Q : (good f <-> Q) ->
    (good (bind (idx t i) (fun r => bind (rassert (Nat.eqb (length t) (length r))) (fun _ => f))) <-> square_row t i /\ Q).
  Proof.
    intro HQ. rewrite good_bind. unfold square_row. split.
    - intros (r & Hr & H). apply idx_eq in Hr. rewrite (good_seq _ _ (length t = length r) Q) in H; [|rewrite good_assert; apply Nat.eqb_eq|intros _; exact HQ].
      destruct H as (H1 & H2). split; [exists r; auto|exact H2].
    - intros ((r & Hr & Hl) & Q0). exists r. rewrite idx_eq. split; [exact Hr|].
      rewrite (good_seq _ _ (length t = length r) Q); [auto|rewrite good_assert; apply Nat.eqb_eq|intros _; exact HQ].
  Qed.
  Lemma square_iff (o : Options F) : good (check_square o) <-> forall i, i < length (o_interaction_potential o) ->
      square_row (o_interaction_potential o) i /\ square_row (o_scattering_integral o) i /\ square_row (o_root_finder o) i.
  Proof.
    unfold check_square. rewrite good_unit, good_mapM.
    assert (H : forall i, good (check_square_row o i) <-> square_row (o_interaction_potential o) i /\ square_row (o_scattering_integral o) i /\ square_row (o_root_finder o) i).
    { intro i. unfold check_square_row. apply row_iff. apply row_iff. rewrite good_bind. unfold square_row. split.
      - intros (r & Hr & H). apply idx_eq in Hr. rewrite good_assert, Nat.eqb_eq in H. exists r. auto.
      - intros (r & Hr & Hl). exists r. rewrite idx_eq, good_assert, Nat.eqb_eq. auto. }
    split; intros HH i Hi.
    - apply H, HH, in_seq. lia.
    - apply H, HH. apply in_seq in Hi. lia.
  Qed.
  Lemma available_iff cpr (rf : Rootfinder F) : rootfinder_in_build cpr rf = true <-> available cpr rf.
  Proof. unfold rootfinder_in_build, available. destruct cpr, rf; cbn; split; congruence || auto. Qed.
  Lemma suits_iff (ip : InteractionPotential F) rf : combination_allowed ip rf = true <-> suits ip rf.
  Proof. destruct ip, rf; cbn; split; congruence || auto || tauto. Qed.
  Lemma in_zip3 {A B C} (a : list A) (b : list B) (c : list C) x y z :
    In (x, y, z) (zip (zip a b) c) <-> exists i, nth_error a i = Some x /\ nth_error b i = Some y /\ nth_error c i = Some z.
  Proof.
    revert b c. induction a as [|a0 a IH]; intros b c; cbn [zip combine].
    - split; [intros []|]. intros ([|i] & H & _); discriminate.
    - destruct b as [|b0 b]; cbn [combine]; [split; [intros []|]; intros ([|i] & _ & H & _); discriminate|].
      destruct c as [|c0 c]; cbn [combine In]; [split; [intros []|]; intros ([|i] & _ & _ & H); discriminate|].
      unfold zip in IH. rewrite IH. split.
      + intros [H|(i & H)]; [exists 0; cbn; injection H as -> -> ->; auto|exists (S i); exact H].
      + intros ([|i] & H1 & H2 & H3); [left; cbn in *; congruence|right; exists i; auto].
  Qed.
  Lemma pairs_iff cpr (o : Options F) : good (check_combinations cpr o) <->
    forall i j ip si rf, entry (o_interaction_potential o) i j ip -> entry (o_scattering_integral o) i j si ->
      entry (o_root_finder o) i j rf -> available cpr rf /\ suits ip rf.
  Proof.
    unfold check_combinations. rewrite good_unit, good_mapM.
    assert (P : forall (ip : InteractionPotential F) (si : ScatteringIntegral) (rf : Rootfinder F), good (check_combination cpr (ip, si, rf)) <-> available cpr rf /\ suits ip rf).
    { intros ip si rf. cbn [check_combination]. apply good_seq; [rewrite good_assert; apply available_iff|intros _; rewrite good_assert; apply suits_iff]. }
    split.
    - intros H i j ip si rf (r & Hr & Hip) (s & Hs & Hsi) (f & Hf & Hrf). apply (P ip si rf).
      assert (HI : In (r, s, f) (zip (zip (o_interaction_potential o) (o_scattering_integral o)) (o_root_finder o))) by (apply in_zip3; exists i; auto).
      specialize (H _ HI). cbn [check_combination_row] in H. rewrite good_unit, good_mapM in H. apply H. apply in_zip3. exists j. auto.
    - intros H ((r, s), f) HI. apply in_zip3 in HI. destruct HI as (i & Hr & Hs & Hf). cbn [check_combination_row]. rewrite good_unit, good_mapM.
      intros ((ip, si), rf) HJ. apply in_zip3 in HJ. destruct HJ as (j & H1 & H2 & H3). apply P. apply (H i j ip si rf); [exists r|exists s|exists f]; auto.
  Qed.
  (** ** indices *)
  Lemma fold_max_lt l : forall i n, fold_left Nat.max l i < n <-> i < n /\ Forall (fun j => j < n) l.
  Proof.
    induction l as [|j l IH]; intros i n; cbn [fold_left]; [split; [auto|tauto]|]. rewrite IH, Forall_cons_iff. rewrite Nat.max_lub_lt_iff. tauto.
  Qed.
  Lemma indices_iff given n rows : good (max_below (expand_indices given n) rows) <-> indices_in_range given n rows.
  Proof.
    unfold expand_indices, indices_in_range. destruct (Nat.leb_spec (length given) 1).
    - destruct n as [|n]; cbn [repeat max_below].
      + split; [intros (u & H0); discriminate|intros (H0 & _); specialize (H0 H); lia].
      + rewrite good_assert, Nat.ltb_lt, fold_max_lt. split; [intros (H0 & _); split; [lia|lia]|].
        intros (H0 & _). specialize (H0 H). split; [lia|]. apply Forall_forall. intros j Hj. apply repeat_spec in Hj. lia.
    - destruct given as [|i l]; cbn [length] in H; [lia|]. cbn [max_below]. rewrite good_assert, Nat.ltb_lt, fold_max_lt.
      split; [intros (H1 & H2); split; [cbn; lia|intros _; constructor; auto]|]. intros (_ & H1). specialize (H1 ltac:(cbn; lia)).
      rewrite Forall_cons_iff in H1. exact H1.
  Qed.
  (** ** drawing *)
  Lemma draw_iff normal_ok (d : Dist F) rng n : mgood (draw normal_ok d) rng n <-> drawable normal_ok d.
  Proof.
    destruct d as [min max|mean std|v]; cbn [draw drawable].
    - rewrite (mgood_seq _ _ _ _ (nlt min max = true) True); [tauto|rewrite mgood_lift, good_assert; tauto|].
      intros a k. rewrite (mgood_seq _ _ _ _ True True); [tauto|apply mgood_random|intros; apply mgood_ret].
    - rewrite (mgood_seq _ _ _ _ (normal_ok std = true) True); [tauto| |].
      + rewrite mgood_lift. destruct (normal_ok std); split; [reflexivity|intros _; apply good_ok|intros (u & H); discriminate|discriminate].
      + intros a k. rewrite (mgood_seq _ _ _ _ True True); [tauto|apply mgood_random|intros; apply mgood_ret].
    - apply mgood_ret.
  Qed.
  Lemma draw_scaled_iff normal_ok u (d : Dist F) rng n : mgood (draw_scaled normal_ok u d) rng n <-> drawable normal_ok d.
  Proof. unfold draw_scaled. rewrite (mgood_seq _ _ _ _ (drawable normal_ok d) True); [tauto|apply draw_iff|intros; apply mgood_ret]. Qed.
  Lemma draw_x_iff h normal_ok u (d y z : Dist F) rng n : mgood (draw_direction h normal_ok u true d) rng n <-> drawable normal_ok d /\ not_along_x (d, y, z).
  Proof.
    destruct d as [min max|mean std|v]; cbn [draw_direction not_along_x]; [rewrite draw_scaled_iff; tauto|rewrite draw_scaled_iff; tauto|].
    rewrite (mgood_seq _ _ _ _ (neqb v (nZ 1%Z) = false) True); [cbn; tauto| |intros; apply mgood_ret].
    rewrite mgood_lift, good_assert. apply negb_true_iff.
  Qed.
  Lemma draw_yz_iff h normal_ok u (d : Dist F) rng n : mgood (draw_direction h normal_ok u false d) rng n <-> drawable normal_ok d.
  Proof.
    destruct d as [min max|mean std|v]; cbn [draw_direction]; [apply draw_scaled_iff..|].
    rewrite (mgood_seq _ _ _ _ True True); [cbn; tauto| |intros; apply mgood_ret]. rewrite mgood_lift. split; [auto|intros _; apply good_ok].
  Qed.
  Definition drawn_ok normal_ok (E : Dist F) pos dir : Prop :=
    drawable normal_ok E /\ triple (drawable normal_ok) pos /\ triple (drawable normal_ok) dir /\ not_along_x dir.
  Lemma particle_iff h normal_ok lu eu mu m Z E Ec Es ii pos dir rng n :
    mgood (make_particle h normal_ok lu eu mu m Z E Ec Es ii pos dir) rng n <-> drawn_ok normal_ok E pos dir.
  Proof.
    destruct pos as ((x, y), z), dir as ((cx, cy), cz). unfold make_particle, drawn_ok, triple.
    rewrite (mgood_seq _ _ _ _ (drawable normal_ok E) ((drawable normal_ok x /\ drawable normal_ok y /\ drawable normal_ok z) /\
      (drawable normal_ok cx /\ drawable normal_ok cy /\ drawable normal_ok cz) /\ not_along_x (cx, cy, cz))); [tauto|apply draw_scaled_iff|]. intros v1 k1.
    rewrite (mgood_seq _ _ _ _ (drawable normal_ok x) (drawable normal_ok y /\ drawable normal_ok z /\
      (drawable normal_ok cx /\ drawable normal_ok cy /\ drawable normal_ok cz) /\ not_along_x (cx, cy, cz))); [tauto|apply draw_scaled_iff|]. intros v2 k2.
    rewrite (mgood_seq _ _ _ _ (drawable normal_ok y) (drawable normal_ok z /\
      (drawable normal_ok cx /\ drawable normal_ok cy /\ drawable normal_ok cz) /\ not_along_x (cx, cy, cz))); [tauto|apply draw_scaled_iff|]. intros v3 k3.
    rewrite (mgood_seq _ _ _ _ (drawable normal_ok z)
      ((drawable normal_ok cx /\ drawable normal_ok cy /\ drawable normal_ok cz) /\ not_along_x (cx, cy, cz))); [tauto|apply draw_scaled_iff|]. intros v4 k4.
    rewrite (mgood_seq _ _ _ _ (drawable normal_ok cx /\ not_along_x (cx, cy, cz)) (drawable normal_ok cy /\ drawable normal_ok cz)); [tauto|apply draw_x_iff|]. intros v5 k5.
    rewrite (mgood_seq _ _ _ _ (drawable normal_ok cy) (drawable normal_ok cz)); [tauto|apply draw_yz_iff|]. intros v6 k6.
    rewrite (mgood_seq _ _ _ _ (drawable normal_ok cz) True); [tauto|apply draw_yz_iff|]. intros v7 k7. apply mgood_ret.
  Qed.
  Lemma repeat_iff {A} (m : M F A) P k : (forall rng n, mgood m rng n <-> P) -> forall rng n, mgood (mrepeat k m) rng n <-> (0 < k -> P).
  Proof.
    intro H. induction k as [|k IH]; intros rng n; cbn [mrepeat]; [rewrite mgood_ret; split; [lia|auto]|].
    rewrite (mgood_seq _ _ _ _ P (0 < k -> P)); [split; [tauto|intro K; specialize (K ltac:(lia)); tauto]|apply H|].
    intros a j. rewrite (mgood_seq _ _ _ _ (0 < k -> P) True); [tauto|apply IH|intros; apply mgood_ret].
  Qed.
  Lemma nth_lt {A} (l : list A) i : i < length l <-> exists a, nth_error l i = Some a.
  Proof. rewrite <- nth_error_Some. split; [destruct (nth_error l i) as [a|]; [exists a; reflexivity|congruence]|intros (a & ->); discriminate]. Qed.
  Lemma entry_iff h normal_ok lu eu mu (pp : ParticleParameters F) i rng n :
    length (pp_m pp) = length (pp_Z pp) -> i < length (pp_Z pp) ->
    mgood (make_entry h normal_ok lu eu mu pp (expand_indices (pp_interaction_index pp) (length (pp_Z pp))) i) rng n <-> consistent_entry normal_ok pp i.
  Proof.
    intros Lm Li. unfold make_entry, consistent_entry.
    assert (EI : i < length (expand_indices (pp_interaction_index pp) (length (pp_Z pp))) <-> (2 <= length (pp_interaction_index pp) -> i < length (pp_interaction_index pp))).
    { unfold expand_indices. destruct (Nat.leb_spec (length (pp_interaction_index pp)) 1); [rewrite repeat_length|]; lia. }
    split.
    - intro H. apply mgood_value in H. destruct H as (N & HN & H). apply mgood_value in H. destruct H as (m & Hm & H). apply mgood_value in H. destruct H as (Z & HZ & H).
      apply mgood_value in H. destruct H as (E & HE & H). apply mgood_value in H. destruct H as (Ec & HEc & H). apply mgood_value in H. destruct H as (Es & HEs & H).
      apply mgood_value in H. destruct H as (ii & Hii & H). apply mgood_value in H. destruct H as (pos & Hpos & H). apply mgood_value in H. destruct H as (dir & Hdir & H).
      pose proof (proj1 (repeat_iff _ (drawn_ok normal_ok E pos dir) N ltac:(intros; apply particle_iff) _ _) H) as HH. apply idx_eq in HN, HE, HEc, HEs, Hii, Hpos, Hdir.
      exists N, E, pos, dir. split; [exact HN|]. split; [apply nth_lt; eauto|]. split; [apply nth_lt; eauto|]. split; [apply EI, nth_lt; eauto|]. repeat (split; [assumption|]). exact HH.
    - intros (N & E & pos & dir & HN & HEc & HEs & Hii & HE & Hpos & Hdir & H). apply EI in Hii. apply nth_lt in HEc, HEs, Hii. destruct HEc as (Ec & HEc). destruct HEs as (Es & HEs). destruct Hii as (ii & Hii).
      assert (Hm : i < length (pp_m pp)) by lia. apply nth_lt in Hm. destruct Hm as (m & Hm). apply nth_lt in Li. destruct Li as (Z & HZ).
      apply mgood_value. exists N. rewrite idx_eq. split; [exact HN|]. apply mgood_value. exists m. rewrite idx_eq. split; [exact Hm|]. apply mgood_value. exists Z. rewrite idx_eq. split; [exact HZ|].
      apply mgood_value. exists E. rewrite idx_eq. split; [exact HE|]. apply mgood_value. exists Ec. rewrite idx_eq. split; [exact HEc|]. apply mgood_value. exists Es. rewrite idx_eq. split; [exact HEs|].
      apply mgood_value. exists ii. rewrite idx_eq. split; [exact Hii|]. apply mgood_value. exists pos. rewrite idx_eq. split; [exact Hpos|]. apply mgood_value. exists dir. rewrite idx_eq. split; [exact Hdir|].
      apply (repeat_iff _ (drawn_ok normal_ok E pos dir) N ltac:(intros; apply particle_iff)). exact H.
  Qed.
  Lemma entries_iff h normal_ok lu eu mu (pp : ParticleParameters F) : length (pp_m pp) = length (pp_Z pp) -> forall is, (forall i, In i is -> i < length (pp_Z pp)) -> forall rng n,
    mgood (make_entries h normal_ok lu eu mu pp (expand_indices (pp_interaction_index pp) (length (pp_Z pp))) is) rng n <-> (forall i, In i is -> consistent_entry normal_ok pp i).
  Proof.
    intros Lm is. induction is as [|i is IH]; intros Hi rng n; cbn [make_entries]; [rewrite mgood_ret; split; [intros _ i []|auto]|].
    rewrite (mgood_seq _ _ _ _ (consistent_entry normal_ok pp i) (forall j, In j is -> consistent_entry normal_ok pp j)).
    - split; [intros (H1 & H2) j [<-|Hj]; auto|]. intro H. split; [apply H; left; reflexivity|intros j Hj; apply H; right; exact Hj].
    - apply entry_iff; [exact Lm|apply Hi; left; reflexivity].
    - intros a k. rewrite (mgood_seq _ _ _ _ (forall j, In j is -> consistent_entry normal_ok pp j) True); [tauto|apply IH; intros j Hj; apply Hi; right; exact Hj|intros; apply mgood_ret].
  Qed.
  Lemma particles_iff ft normal_ok (o : Options F) lu eu mu pp rng n : length (pp_m pp) = length (pp_Z pp) ->
    mgood (make_particles ft normal_ok o lu eu mu pp (expand_indices (pp_interaction_index pp) (length (pp_Z pp)))) rng n <->
    (if o_use_hdf5 o then exists file, ft_hdf5 ft = Some (Ok file) else forall i, i < length (pp_Z pp) -> consistent_entry normal_ok pp i).
  Proof.
    intro Lm. unfold make_particles. destruct (o_use_hdf5 o).
    - destruct (ft_hdf5 ft) as [file|]; rewrite mgood_lift.
      + split; [intros (l & ->); exists l; reflexivity|intros (l & H); exists l; congruence].
      + split; [intros (l & H); discriminate|intros (l & H); discriminate].
    - rewrite entries_iff; [|exact Lm|intros i Hi; apply in_seq in Hi; lia]. split; intros H i Hi; apply H; [apply in_seq; lia|apply in_seq in Hi; lia].
  Qed.
  (** ** the file *)
  Lemma length_unit_iff (u : LengthUnit F) : good (length_unit_value u) <-> known_length u.
  Proof. unfold known_length. destruct u as [| | | | | |[v|]]; cbn; (split; [intros H; try discriminate; destruct H; discriminate|intro; try apply good_ok; congruence]). Qed.
  Lemma energy_unit_iff (u : EnergyUnit F) : good (energy_unit_value u) <-> known_energy u.
  Proof. unfold known_energy. destruct u as [| | | |[v|]]; cbn; (split; [intros H; try discriminate; destruct H; discriminate|intro; try apply good_ok; congruence]). Qed.
  Lemma mass_unit_iff (u : MassUnit F) : good (mass_unit_value u) <-> known_mass u.
  Proof. unfold known_mass. destruct u as [| |[v|]]; cbn; (split; [intros H; try discriminate; destruct H; discriminate|intro; try apply good_ok; congruence]). Qed.
  Lemma lengths_iff (pp : ParticleParameters F) : good (check_particle_lengths pp) <->
    length (pp_m pp) = length (pp_Z pp) /\ length (pp_E pp) = length (pp_Z pp) /\ length (pp_pos pp) = length (pp_Z pp) /\ length (pp_dir pp) = length (pp_Z pp).
  Proof.
    unfold check_particle_lengths. cbv zeta.
    assert (A : forall a b : nat, good (rassert (Nat.eqb a b)) <-> b = a) by (intros; rewrite good_assert, Nat.eqb_eq; split; congruence).
    apply good_seq; [apply A|intros _]. apply good_seq; [apply A|intros _]. apply good_seq; [apply A|intros _]. apply A.
  Qed.
  Theorem input_iff ft normal_ok (inp : InputData F) rng n : mgood (input ft normal_ok inp) rng n <-> consistent_file ft normal_ok inp.
  Proof.
    unfold input, consistent_file. cbv zeta. set (o := in_options inp). set (pp := in_particle inp). set (mp := in_material inp).
    assert (A : forall (a b : nat) rng n, mgood (mlift (F := F) (rassert (Nat.eqb a b))) rng n <-> b = a) by (intros; rewrite mgood_lift, good_assert, Nat.eqb_eq; split; congruence).
    assert (L : forall (a b : nat) rng n, mgood (mlift (F := F) (rassert (Nat.ltb a b))) rng n <-> a < b) by (intros; rewrite mgood_lift, good_assert; apply Nat.ltb_lt).
    set (rows := length (o_interaction_potential o)).
    set (HDF := if o_use_hdf5 o then exists file, ft_hdf5 ft = Some (Ok file) else forall i, i < length (pp_Z pp) -> consistent_entry normal_ok pp i).
    rewrite mgood_value.
    assert (MN : forall mat, material_new mp (in_geometry inp) = Ok mat ->
      length (mat_m mat) = length (mp_m mp) /\ length (mat_Z mat) = length (mp_Z mp) /\ length (mat_Eb mat) = length (mp_Eb mp) /\ length (mat_Es mat) = length (mp_Es mp) /\
      (mat_Ed mat <> [] <-> mp_Ed mp <> []) /\ mat_interaction_index mat = mp_interaction_index mp).
    { intros mat H. unfold material_new in H. apply bind_ok in H. destruct H as (e & _ & H). apply bind_ok in H. destruct H as (m & _ & H). apply bind_ok in H. destruct H as (g & _ & H).
      injection H as <-. cbn. rewrite !map_length. repeat split. all: destruct (mp_Ed mp); cbn; congruence. }
    assert (MG : good (material_new mp (in_geometry inp)) <-> known_energy (mp_energy_unit mp) /\ known_mass (mp_mass_unit mp) /\ exists g, in_geometry inp = Ok g).
    { unfold material_new. apply good_seq; [apply energy_unit_iff|intros eu0]. apply good_seq; [apply mass_unit_iff|intros mu0]. rewrite good_bind. split; [intros (g & H & _); exists g; exact H|intros (g & H); exists g; split; [exact H|apply good_ok]]. }
    assert (REST : forall mat, material_new mp (in_geometry inp) = Ok mat -> forall k,
      (mgood (do! _ := mlift (rassert (Nat.ltb 0 (o_num_threads o))) in
    do! _ := mlift (rassert (Nat.ltb 0 (o_num_chunks o))) in
    do! _ := mlift (rassert (Nat.eqb (length (mat_m mat)) (length (mat_Z mat)))) in
    do! _ := mlift (rassert (Nat.eqb (length (mat_m mat)) (length (mat_Eb mat)))) in
    do! _ := mlift (rassert (Nat.eqb (length (mat_m mat)) (length (mat_Es mat)))) in
    do! Ed := mlift (expand_Ed (mat_Ed mat) (length (mat_m mat))) in
    do! _ := mlift (check_free_flight o) in
    do! _ := mlift (check_gaseous o) in
    do! _ := mlift (check_square o) in
    do! _ := mlift (check_combinations (ft_cpr ft) o) in
    do! _ := mlift (check_particle_lengths pp) in
    do! _ := mlift (max_below (mat_interaction_index (set_mat_arrays mat Ed (expand_indices (mat_interaction_index mat) (length (mat_m mat))))) (length (o_interaction_potential o))) in
    do! _ := mlift (max_below (expand_indices (pp_interaction_index pp) (length (pp_Z pp))) (length (o_interaction_potential o))) in
    do! length_unit := mlift (length_unit_value (pp_length_unit pp)) in
    do! energy_unit := mlift (energy_unit_value (pp_energy_unit pp)) in
    do! mass_unit := mlift (mass_unit_value (pp_mass_unit pp)) in
    do! particles := make_particles ft normal_ok o length_unit energy_unit mass_unit pp (expand_indices (pp_interaction_index pp) (length (pp_Z pp))) in
    mret (particles, set_mat_arrays mat Ed (expand_indices (mat_interaction_index mat) (length (mat_m mat))), o, mkOU length_unit energy_unit mass_unit)) rng k <->
      consistent_options (ft_cpr ft) o /\ (length (mp_Z mp) = length (mp_m mp) /\ length (mp_Eb mp) = length (mp_m mp) /\ length (mp_Es mp) = length (mp_m mp) /\ mp_Ed mp <> [] /\
        indices_in_range (mp_interaction_index mp) (length (mp_m mp)) rows) /\ consistent_particles pp rows /\ HDF)).
    { intros mat Hmat k. destruct (MN mat Hmat) as (M1 & M2 & M3 & M4 & M5 & M6). rewrite M1, M2, M3, M4, M6.
      match goal with |- ?G => assert (CO : consistent_options (ft_cpr ft) o <-> 0 < o_num_threads o /\ 0 < o_num_chunks o /\ good (check_free_flight o) /\ good (check_gaseous o) /\ good (check_square o) /\ good (check_combinations (ft_cpr ft) o)) end.
      { rewrite free_flight_iff, gaseous_iff, square_iff, pairs_iff. split; [intros []; auto 10|intros (? & ? & ? & ? & ? & ?); constructor; assumption]. }
      assert (CP : consistent_particles pp rows <-> known_length (pp_length_unit pp) /\ known_energy (pp_energy_unit pp) /\ known_mass (pp_mass_unit pp) /\ good (check_particle_lengths pp) /\ indices_in_range (pp_interaction_index pp) (length (pp_Z pp)) rows).
      { rewrite lengths_iff. split; [intros []; auto 10|intros (? & ? & ? & (? & ? & ? & ?) & ?); constructor; assumption]. }
      rewrite CO.
      eapply iff_trans; [apply (mgood_seq _ _ _ _ (0 < o_num_threads o) (0 < o_num_chunks o /\ length (mp_Z mp) = length (mp_m mp) /\ length (mp_Eb mp) = length (mp_m mp) /\ length (mp_Es mp) = length (mp_m mp) /\ mp_Ed mp <> [] /\
        good (check_free_flight o) /\ good (check_gaseous o) /\ good (check_square o) /\ good (check_combinations (ft_cpr ft) o) /\ indices_in_range (mp_interaction_index mp) (length (mp_m mp)) rows /\ consistent_particles pp rows /\ HDF)); [apply L|]|tauto].
      intros _ k1. apply mgood_seq; [apply L|intros _ k2]. apply mgood_seq; [apply A|intros _ k3]. apply mgood_seq; [apply A|intros _ k4]. apply mgood_seq; [apply A|intros _ k5].
      apply mgood_seq.
      { rewrite mgood_lift, <- M5. unfold expand_Ed. destruct (mat_Ed mat) as [|d l]; cbn; [split; [intros (u & H); discriminate|congruence]|].
        split; [discriminate|intros _]. destruct (length l); cbn; apply good_ok. }
      intros Ed k6. apply mgood_seq; [apply mgood_lift|intros _ k7]. apply mgood_seq; [apply mgood_lift|intros _ k8]. apply mgood_seq; [apply mgood_lift|intros _ k9]. apply mgood_seq; [apply mgood_lift|intros _ k10].
      rewrite CP. eapply iff_trans; [apply (mgood_then _ _ _ _ (good (check_particle_lengths pp)) (indices_in_range (mp_interaction_index mp) (length (mp_m mp)) rows /\
        indices_in_range (pp_interaction_index pp) (length (pp_Z pp)) rows /\ known_length (pp_length_unit pp) /\ known_energy (pp_energy_unit pp) /\ known_mass (pp_mass_unit pp) /\ HDF));
        [apply mgood_lift|]|tauto].
      intros LL _ k11. apply lengths_iff in LL. destruct LL as (Lm & _).
      apply mgood_seq; [cbn [set_mat_arrays mat_interaction_index]; rewrite mgood_lift; apply indices_iff|intros _ k12].
      apply mgood_seq; [rewrite mgood_lift; apply indices_iff|intros _ k13]. apply mgood_seq; [rewrite mgood_lift; apply length_unit_iff|intros lu k14].
      apply mgood_seq; [rewrite mgood_lift; apply energy_unit_iff|intros eu k15]. apply mgood_seq; [rewrite mgood_lift; apply mass_unit_iff|intros mu k16].
      rewrite (mgood_seq _ _ _ _ HDF True); [tauto| |intros; apply mgood_ret]. apply particles_iff. exact Lm. }
    assert (CM : consistent_material mp rows <-> known_energy (mp_energy_unit mp) /\ known_mass (mp_mass_unit mp) /\ (length (mp_Z mp) = length (mp_m mp) /\ length (mp_Eb mp) = length (mp_m mp) /\ length (mp_Es mp) = length (mp_m mp) /\ mp_Ed mp <> [] /\
        indices_in_range (mp_interaction_index mp) (length (mp_m mp)) rows)).
    { split; [intros []; auto 10|intros (? & ? & ? & ? & ? & ? & ?); constructor; assumption]. }
    rewrite CM. split.
    - intros (mat & Hmat & H). apply (REST mat Hmat) in H. assert (G : good (material_new mp (in_geometry inp))) by (exists mat; exact Hmat). apply MG in G. tauto.
    - intro H. assert (G : good (material_new mp (in_geometry inp))) by (apply MG; tauto). destruct G as (mat & Hmat). exists mat. split; [exact Hmat|]. apply (REST mat Hmat). tauto.
  Qed.
End Valid.
