(** * ProofsInput.v - input() and the particles it makes *)
From Coq Require Import ZArith List Bool Lia Reals Lra.
From Verif Require Import Num NumR ModelTypes ModelConsts ModelParticle ModelInteractions ModelGeometry ModelMaterial ModelBca ModelInput ProofsBase SpecInput.
Import ListNotations.
Open Scope nat_scope.

Section Input.
  Context {F : Type} {NF : Num F}.
  Implicit Types (o : Options F) (pp : ParticleParameters F).

  Lemma input_inv ft normal_ok (inp : InputData F) rng n ps mat o u n' :
    input ft normal_ok inp rng n = Ok ((ps, mat, o, u), n') ->
    let pp := in_particle inp in
    o = in_options inp /\
    exists mat0 Ed lu eu mu,
      material_new (in_material inp) (in_geometry inp) = Ok mat0 /\
      length (mat_m mat0) = length (mat_Z mat0) /\ length (mat_m mat0) = length (mat_Eb mat0) /\ length (mat_m mat0) = length (mat_Es mat0) /\
      expand_Ed (mat_Ed mat0) (length (mat_m mat0)) = Ok Ed /\
      mat = set_mat_arrays mat0 Ed (expand_indices (mat_interaction_index mat0) (length (mat_m mat0))) /\
      check_free_flight o = Ok tt /\ check_gaseous o = Ok tt /\ check_square o = Ok tt /\ check_combinations (ft_cpr ft) o = Ok tt /\
      length (pp_Z pp) = length (pp_m pp) /\ length (pp_Z pp) = length (pp_E pp) /\ length (pp_Z pp) = length (pp_pos pp) /\ length (pp_Z pp) = length (pp_dir pp) /\
      max_below (mat_interaction_index mat) (length (o_interaction_potential o)) = Ok tt /\
      max_below (expand_indices (pp_interaction_index pp) (length (pp_Z pp))) (length (o_interaction_potential o)) = Ok tt /\
      length_unit_value (pp_length_unit pp) = Ok lu /\ energy_unit_value (pp_energy_unit pp) = Ok eu /\ mass_unit_value (pp_mass_unit pp) = Ok mu /\
      make_particles ft normal_ok o lu eu mu pp (expand_indices (pp_interaction_index pp) (length (pp_Z pp))) rng n = Ok (ps, n') /\
      u = mkOU lu eu mu /\ (0 < o_num_threads o) /\ (0 < o_num_chunks o).
  Proof.
    intros H pp. unfold input in H. cbv zeta in H. fold pp in H.
    repeat (apply mbind_ok in H; let a := fresh "a" in let k := fresh "k" in let E := fresh "E" in destruct H as (a & k & E & H)).
    apply mret_ok in H. destruct H as (H & Hn').
    repeat match goal with E : mlift _ _ _ = Ok _ |- _ => apply mlift_ok in E; destruct E as (E & ?) end. subst.
    injection H as -> -> -> ->.
    repeat match goal with E : rassert _ = Ok _ |- _ => apply rassert_ok in E end.
    split; [reflexivity|].
    repeat match goal with a : unit |- _ => destruct a end.
    match goal with E : material_new _ _ = Ok ?m0, E' : expand_Ed _ _ = Ok ?e, E1 : length_unit_value _ = Ok ?l, E2 : energy_unit_value (pp_energy_unit pp) = Ok ?e2, E3 : mass_unit_value (pp_mass_unit pp) = Ok ?mm |- _ =>
      exists m0, e, l, e2, mm end.
    match goal with E : check_particle_lengths _ = Ok _ |- _ => unfold check_particle_lengths in E; cbv zeta in E;
      repeat (apply bind_ok in E; destruct E as ([] & ?Hl & E)) end.
    repeat match goal with E : rassert _ = Ok _ |- _ => apply rassert_ok in E end.
    repeat match goal with E : Nat.eqb _ _ = true |- _ => apply Nat.eqb_eq in E | E : Nat.ltb _ _ = true |- _ => apply Nat.ltb_lt in E end.
    repeat (split; [first [assumption|reflexivity|congruence]|]). repeat split; assumption.
  Qed.

  (** ** interaction tables *)
  Lemma max_below_ok l n : max_below l n = Ok tt -> Forall (fun i => i < n) l.
  Proof.
    destruct l as [|i l]; cbn [max_below]; intros H; [discriminate|]. apply rassert_ok in H. apply Nat.ltb_lt in H.
    assert (Hm : forall l i, i <= fold_left Nat.max l i /\ Forall (fun j => j <= fold_left Nat.max l i) l).
    { clear. induction l as [|j l IH]; intros i; cbn; [split; [lia|constructor]|].
      destruct (IH (Nat.max i j)) as (H1 & H2). split; [lia|]. constructor; [lia|exact H2]. }
    destruct (Hm l i) as (H1 & H2). constructor; [lia|]. eapply Forall_impl; [|exact H2]. cbn. intros; lia.
  Qed.
  Lemma mapM_unit_ok {A B} (f : A -> Res B) l : (let! _ := mapM f l in Ok tt) = Ok tt -> Forall (fun a => exists b, f a = Ok b) l.
  Proof.
    intros H. apply bind_ok in H. destruct H as (bs & H & _). apply mapM_ok in H.
    induction H; constructor; eauto.
  Qed.
  Lemma check_square_ok o : check_square o = Ok tt ->
    let n := length (o_interaction_potential o) in
    forall i j, i < n -> j < n ->
      exists ip si rf, idx2 (o_interaction_potential o) i j = Ok ip /\ idx2 (o_scattering_integral o) i j = Ok si /\ idx2 (o_root_finder o) i j = Ok rf.
  Proof.
    intros H n i j Hi Hj. unfold check_square in H. apply mapM_unit_ok in H. rewrite Forall_forall in H.
    assert (Hrow : forall k, k < n -> exists r s f, idx (o_interaction_potential o) k = Ok r /\ length r = n /\
       idx (o_scattering_integral o) k = Ok s /\ length (o_scattering_integral o) = length s /\
       idx (o_root_finder o) k = Ok f /\ length (o_root_finder o) = length f).
    { intros k Hk. destruct (H k) as (b & Hb); [apply in_seq; fold n; lia|]. unfold check_square_row in Hb.
      apply bind_ok in Hb. destruct Hb as (r & Hr & Hb). apply bind_ok in Hb. destruct Hb as (u1 & H1 & Hb).
      apply bind_ok in Hb. destruct Hb as (s & Hs & Hb). apply bind_ok in Hb. destruct Hb as (u2 & H2 & Hb).
      apply bind_ok in Hb. destruct Hb as (f & Hf & Hb). apply rassert_ok in H1, H2, Hb. apply Nat.eqb_eq in H1, H2, Hb.
      exists r, s, f. unfold n. repeat split; auto. }
    assert (Hlen : forall A (l : list A) k a, idx l k = Ok a -> k < length l).
    { intros A l k a Hk. apply idx_ok in Hk. apply nth_error_Some. congruence. }
    destruct (Hrow (n - 1) ltac:(lia)) as (r1 & s1 & f1 & _ & _ & Hs1 & _ & Hf1 & _). apply Hlen in Hs1, Hf1.
    destruct (Hrow i Hi) as (r & s & f & Hr & Lr & Hs & Ls & Hf & Lf).
    unfold idx2. rewrite Hr, Hs, Hf. cbn [bind].
    destruct (idx_lt r j ltac:(lia)) as (ip & ->). destruct (idx_lt s j ltac:(lia)) as (si & ->). destruct (idx_lt f j ltac:(lia)) as (rf & ->).
    eauto 8.
  Qed.
  Lemma zip_nth {A B} (a : list A) (b : list B) i x y : nth_error a i = Some x -> nth_error b i = Some y -> nth_error (zip a b) i = Some (x, y).
  Proof.
    revert b i. induction a as [|a0 a IH]; intros b i Ha Hb; [destruct i; discriminate|].
    destruct b as [|b0 b]; [destruct i; discriminate|]. destruct i as [|i]; cbn in *; [congruence|]. apply IH; assumption.
  Qed.
  Lemma check_combinations_ok cpr o i j ip si rf : check_combinations cpr o = Ok tt ->
    idx2 (o_interaction_potential o) i j = Ok ip -> idx2 (o_scattering_integral o) i j = Ok si -> idx2 (o_root_finder o) i j = Ok rf ->
    rootfinder_in_build cpr rf = true /\ combination_allowed ip rf = true.
  Proof.
    intros H H1 H2 H3. unfold idx2 in *. apply bind_ok in H1, H2, H3.
    destruct H1 as (r & Hr & H1). destruct H2 as (s & Hs & H2). destruct H3 as (f & Hf & H3). apply idx_ok in Hr, Hs, Hf, H1, H2, H3.
    unfold check_combinations in H. apply mapM_unit_ok in H. rewrite Forall_forall in H.
    pose proof (zip_nth _ _ _ _ _ (zip_nth _ _ _ _ _ Hr Hs) Hf) as Hz. apply nth_error_In in Hz. destruct (H _ Hz) as (b & Hb).
    cbn [check_combination_row] in Hb. destruct b. apply mapM_unit_ok in Hb. rewrite Forall_forall in Hb.
    pose proof (zip_nth _ _ _ _ _ (zip_nth _ _ _ _ _ H1 H2) H3) as Hz'. apply nth_error_In in Hz'. destruct (Hb _ Hz') as (b & Hb').
    cbn [check_combination] in Hb'. apply bind_ok in Hb'. destruct Hb' as (u & Hu & Hb'). apply rassert_ok in Hu. apply rassert_ok in Hb'. auto.
  Qed.

  (** ** the particles *)
  Lemma mrepeat_ok {A} (m : M F A) k : forall rng n l n', mrepeat k m rng n = Ok (l, n') ->
    length l = k /\ Forall (fun a => exists i j, m rng i = Ok (a, j)) l.
  Proof.
    induction k as [|k IH]; intros rng n l n' H; cbn [mrepeat] in H.
    - apply mret_ok in H. destruct H as (-> & _). split; [reflexivity|constructor].
    - apply mbind_ok in H. destruct H as (a & n1 & Ha & H). apply mbind_ok in H. destruct H as (l' & n2 & Hl & H).
      apply mret_ok in H. destruct H as (-> & _). destruct (IH _ _ _ _ Hl) as (H1 & H2). split; [cbn; congruence|]. constructor; eauto.
  Qed.
  Lemma draw_ok normal_ok d rng n v n' : draw normal_ok d rng n = Ok (v, n') -> drawn rng d v.
  Proof.
    destruct d; cbn [draw drawn]; intros H.
    - inv_ok_step. inv_ok. split; [assumption|]. eauto.
    - inv_ok. eauto.
    - apply mret_ok in H. destruct H; subst; reflexivity.
  Qed.
  Lemma draw_scaled_ok normal_ok u d rng n v n' : draw_scaled normal_ok u d rng n = Ok (v, n') -> exists w, drawn rng d w /\ v = nmul w u.
  Proof. unfold draw_scaled. intros H. apply mbind_ok in H. destruct H as (w & n1 & Hw & H). apply mret_ok in H. destruct H as (-> & _). exists w. split; [eapply draw_ok; exact Hw|reflexivity]. Qed.
  Lemma draw_direction_ok hdf5 normal_ok u is_x d rng n v n' : draw_direction hdf5 normal_ok u is_x d rng n = Ok (v, n') ->
    exists w, drawn rng d w /\ (v = nmul w u \/ (hdf5 = true /\ v = w)).
  Proof.
    intros H. destruct d; cbn [draw_direction] in H.
    1, 2: apply draw_scaled_ok in H; destruct H as (w & Hw & ->); eauto.
    apply mbind_ok in H. destruct H as (t & n1 & _ & H). apply mret_ok in H. destruct H as (-> & _). exists v0. split; [reflexivity|].
    destruct hdf5; auto.
  Qed.
  Lemma make_particle_ok hdf5 normal_ok lu eu mu m Z E Ec Es ii pos dir rng n p n' :
    make_particle hdf5 normal_ok lu eu mu m Z E Ec Es ii pos dir rng n = Ok (p, n') ->
    particle_of_entry hdf5 lu eu mu rng m Z E Ec Es ii pos dir p.
  Proof.
    destruct pos as ((x, y), z), dir as ((cx, cy), cz). unfold make_particle. intros H.
    apply mbind_ok in H. destruct H as (e & n1 & He & H). apply mbind_ok in H. destruct H as (vx & n2 & Hx & H).
    apply mbind_ok in H. destruct H as (vy & n3 & Hy & H). apply mbind_ok in H. destruct H as (vz & n4 & Hz & H).
    apply mbind_ok in H. destruct H as (ux & n5 & Hux & H). apply mbind_ok in H. destruct H as (uy & n6 & Huy & H).
    apply mbind_ok in H. destruct H as (uz & n7 & Huz & H). apply mret_ok in H. destruct H as (-> & _).
    apply draw_scaled_ok in He, Hx, Hy, Hz. apply draw_direction_ok in Hux, Huy, Huz.
    unfold particle_of_entry. cbn. repeat split; auto.
  Qed.
  Lemma make_entries_ok hdf5 normal_ok lu eu mu pp ii : forall is rng n ps n',
    make_entries hdf5 normal_ok lu eu mu pp ii is rng n = Ok (ps, n') ->
    exists blocks, ps = concat blocks /\ Forall2 (fun i block => exists N m Z E Ec Es index pos dir,
      nth_error (pp_N pp) i = Some N /\ nth_error (pp_m pp) i = Some m /\ nth_error (pp_Z pp) i = Some Z /\ nth_error (pp_E pp) i = Some E /\
      nth_error (pp_Ec pp) i = Some Ec /\ nth_error (pp_Es pp) i = Some Es /\ nth_error ii i = Some index /\
      nth_error (pp_pos pp) i = Some pos /\ nth_error (pp_dir pp) i = Some dir /\
      length block = N /\ Forall (particle_of_entry hdf5 lu eu mu rng m Z E Ec Es index pos dir) block) is blocks.
  Proof.
    induction is as [|i is IH]; intros rng n ps n' H; cbn [make_entries] in H.
    - apply mret_ok in H. destruct H as (-> & _). exists []. split; [reflexivity|constructor].
    - apply mbind_ok in H. destruct H as (l & n1 & Hl & H). apply mbind_ok in H. destruct H as (l' & n2 & Hl' & H).
      apply mret_ok in H. destruct H as (-> & _). destruct (IH _ _ _ _ Hl') as (blocks & -> & HF). exists (l :: blocks). split; [reflexivity|].
      constructor; [|exact HF]. unfold make_entry in Hl.
      repeat (apply mbind_ok in Hl; let a := fresh "a" in let k := fresh "k" in let E := fresh "E" in destruct Hl as (a & k & E & Hl); apply mlift_ok in E; destruct E as (E & ?); subst; apply idx_ok in E).
      apply mrepeat_ok in Hl. destruct Hl as (Hlen & Hall).
      do 9 eexists. repeat (split; [eassumption|]).
      eapply Forall_impl; [|exact Hall]. intros p (j & j' & Hp). eapply make_particle_ok. exact Hp.
  Qed.

  Lemma make_particles_entries ft normal_ok o lu eu mu pp ii rng n ps n' :
    make_particles ft normal_ok o lu eu mu pp ii rng n = Ok (ps, n') -> o_use_hdf5 o = false ->
    length (pp_Z pp) <= length (pp_N pp) /\ length (pp_Z pp) <= length (pp_Ec pp) /\ length (pp_Z pp) <= length (pp_Es pp).
  Proof.
    unfold make_particles. intros H Hh. cbv zeta in H. rewrite Hh in H. apply make_entries_ok in H. destruct H as (blocks & -> & HF).
    assert (HA : forall k, k < length (pp_Z pp) -> k < length (pp_N pp) /\ k < length (pp_Ec pp) /\ k < length (pp_Es pp)).
    { intros k Hk. assert (Hin : In k (seq 0 (length (pp_Z pp)))) by (apply in_seq; lia). clear Hk.
      induction HF as [|i b is bs Hb _ IH]; [destruct Hin|]. destruct Hin as [<-|Hin]; [|apply IH; exact Hin].
      destruct Hb as (N & m & Z & E & Ec & Es & index & pos & dir & HN & _ & _ & _ & HEc & HEs & _).
      repeat split; apply nth_error_Some; congruence. }
    destruct (length (pp_Z pp)) as [|k]; [lia|]. specialize (HA k ltac:(lia)). lia.
  Qed.
  (** ** lookups *)
  Lemma make_particles_index ft normal_ok o lu eu mu pp ii rng n ps n' :
    make_particles ft normal_ok o lu eu mu pp ii rng n = Ok (ps, n') -> o_use_hdf5 o = false ->
    Forall (fun p => In (pi_interaction_index p) ii) ps.
  Proof.
    unfold make_particles. intros H Hh. cbv zeta in H. rewrite Hh in H. apply make_entries_ok in H. destruct H as (blocks & -> & HF).
    apply Forall_concat. clear -HF. induction HF as [|i b is bs Hb _ IH]; constructor; [|exact IH].
    destruct Hb as (N & m & Z & E & Ec & Es & index & pos & dir & _ & _ & _ & _ & _ & _ & Hi & _ & _ & _ & Hall).
    apply nth_error_In in Hi. eapply Forall_impl; [|exact Hall]. intros p Hp. destruct pos as ((?, ?), ?), dir as ((?, ?), ?). cbn in Hp.
    replace (pi_interaction_index p) with index by (symmetry; apply Hp). exact Hi.
  Qed.
  Lemma accepted_lookups ft normal_ok (inp : InputData F) rng n ps mat o u n' i j :
    input ft normal_ok inp rng n = Ok ((ps, mat, o, u), n') -> o_use_hdf5 o = false ->
    In i (map (@pi_interaction_index F) ps ++ mat_interaction_index mat) ->
    In j (map (@pi_interaction_index F) ps ++ mat_interaction_index mat) ->
    exists ip si rf, idx2 (o_interaction_potential o) i j = Ok ip /\ idx2 (o_scattering_integral o) i j = Ok si /\ idx2 (o_root_finder o) i j = Ok rf /\
      rootfinder_in_build (ft_cpr ft) rf = true /\ combination_allowed ip rf = true.
  Proof.
    intros H Hh Hi Hj. apply input_inv in H.
    destruct H as (-> & mat0 & Ed & lu & eu & mu & _ & _ & _ & _ & _ & -> & _ & _ & Hsq & Hcomb & _ & _ & _ & _ & Hm & Hp & _ & _ & _ & Hps & _).
    apply max_below_ok in Hm, Hp. apply make_particles_index in Hps; [|exact Hh]. cbn [mat_interaction_index set_mat_arrays] in Hi, Hj, Hm.
    assert (Hlt : forall k, In k (map (@pi_interaction_index F) ps ++ expand_indices (mat_interaction_index mat0) (length (mat_m mat0))) -> k < length (o_interaction_potential (in_options inp))).
    { intros k Hk. apply in_app_or in Hk. rewrite Forall_forall in Hm, Hp, Hps. destruct Hk as [Hk|Hk]; [|apply Hm; exact Hk].
      apply in_map_iff in Hk. destruct Hk as (q & <- & Hq). apply Hp, Hps, Hq. }
    destruct (check_square_ok _ Hsq i j (Hlt _ Hi) (Hlt _ Hj)) as (ip & si & rf & H1 & H2 & H3).
    exists ip, si, rf. destruct (check_combinations_ok _ _ _ _ _ _ _ Hcomb H1 H2 H3). auto.
  Qed.

  (** ** unimplemented combinations *)
  Definition quiet {A} (r : Res A) : Prop := r <> Panic ExplicitPanic.
  Lemma quiet_ok {A} (a : A) : quiet (Ok a). Proof. discriminate. Qed.
  Lemma quiet_bind {A B} (m : Res A) (f : A -> Res B) : quiet m -> (forall a, quiet (f a)) -> quiet (bind m f).
  Proof. intros Hm Hf. destruct m; simpl; [apply Hf|intros E; apply Hm; congruence|discriminate]. Qed.
  Lemma quiet_mapM {A B} (f : A -> Res B) l : (forall a, quiet (f a)) -> quiet (mapM f l).
  Proof. intros Hf. induction l; simpl; [apply quiet_ok|]. apply quiet_bind; [auto|]. intros. apply quiet_bind; [auto|]. intros. apply quiet_ok. Qed.
  Lemma quiet_idx2 {A} (t : list (list A)) i j : quiet (idx2 t i j).
  Proof. unfold idx2, idx. destruct (nth_error t i); [|discriminate]. cbn [bind]. destruct (nth_error l j); discriminate. Qed.
  Lemma quiet_unwrap {A} (r : Res (option A)) : quiet r -> quiet (unwrap_ok r).
  Proof. intros H. unfold unwrap_ok. apply quiet_bind; [exact H|]. intros [a|]; discriminate. Qed.
  Lemma quiet_newton_loop f df a tol k : (forall x, quiet (f x)) -> (forall x, quiet (df x)) -> forall x, quiet (newton_loop f df a tol k x).
  Proof.
    intros Hf Hdf. induction k as [|k IH]; intros x; cbn [newton_loop]; [discriminate|]. apply quiet_bind; [apply Hf|]. intros.
    apply quiet_bind; [apply Hdf|]. intros. cbv zeta. destruct (nlt _ _); [discriminate|apply IH].
  Qed.
  Definition has_derivative (ip : InteractionPotential F) : Prop :=
    match ip with MOLIERE | KR_C | ZBL | TRIDYN | LENZ_JENSEN | LENNARD_JONES_12_6 _ _ | LENNARD_JONES_65_6 _ _ | MORSE _ _ _ => True | _ => False end.
  Lemma quiet_newton Za Zb Ma Mb E p ip k tol : has_derivative ip -> quiet (newton_rootfinder Za Zb Ma Mb E p ip k tol).
  Proof. intros H. apply quiet_newton_loop; intros x; destruct ip; try destruct H; discriminate. Qed.
  Lemma quiet_potential r a Za Zb ip : quiet (interaction_potential r a Za Zb ip).
  Proof. destruct ip; discriminate. Qed.
  Lemma quiet_gauss Za Zb Ma Mb E p x0 ip si : gauss si -> quiet (scattering_angle Za Zb Ma Mb E p x0 ip si).
  Proof.
    intros H. destruct si; try destruct H; unfold scattering_angle.
    - unfold gauss_mehler, scattering_integral_gauss_mehler. apply quiet_bind; [|discriminate].
      apply quiet_mapM. intros (x, w). apply quiet_bind; [|discriminate]. unfold scattering_function_gm. apply quiet_bind; [apply quiet_potential|].
      intros v. cbv zeta. destruct (nis_nan _); discriminate.
    - unfold gauss_legendre, scattering_integral_gauss_legendre. apply quiet_bind; [|discriminate].
      apply quiet_mapM. intros (x, w). apply quiet_bind; [|discriminate]. unfold scattering_function_gl. apply quiet_bind; [apply quiet_potential|].
      intros v. cbv zeta. destruct (nis_nan _); discriminate.
  Qed.
  Lemma quiet_polynomial q Za Zb Ma Mb E p ip ct :
    match ip with LENNARD_JONES_12_6 _ _ | LENNARD_JONES_65_6 _ _ | FOUR_EIGHT _ _ => True | _ => False end ->
    quiet (polynomial_rootfinder q Za Zb Ma Mb E p ip ct).
  Proof.
    intros H. unfold polynomial_rootfinder. cbv zeta. apply quiet_bind; [destruct ip; try destruct H; discriminate|]. intros cs.
    destruct (cq_real_polynomial_roots q cs ct); [|discriminate]. destruct (max_root l); [|discriminate].
    apply quiet_bind; [destruct ip; try destruct H; discriminate|]. intros r. destruct (nis_nan r); discriminate.
  Qed.
  Lemma implemented_quiet build p1 p2 bcg o ip si rf :
    idx2 (o_interaction_potential o) (p_interaction_index p1) (p_interaction_index p2) = Ok ip ->
    idx2 (o_scattering_integral o) (p_interaction_index p1) (p_interaction_index p2) = Ok si ->
    idx2 (o_root_finder o) (p_interaction_index p1) (p_interaction_index p2) = Ok rf ->
    rootfinder_in_build (is_some build) rf = true -> combination_allowed ip rf = true -> implemented ip si rf ->
    nlt_inf (ndiv (nmul (p_E p1) (p_m p2)) (nadd (p_m p1) (p_m p2))) = true ->
    quiet (calculate_binary_collision build p1 p2 bcg o).
  Proof.
    intros Hip Hsi Hrf Hb Hc Himp Hinf. unfold calculate_binary_collision. rewrite Hip, Hsi. cbn [bind].
    apply quiet_bind.
    - unfold distance_of_closest_approach. rewrite Hip, Hrf. cbn [bind].
      assert (HN : forall k tol, has_derivative ip -> quiet (unwrap_ok (newton_rootfinder (p_Z p1) (p_Z p2) (p_m p1) (p_m p2) (p_E p1) (bcg_impact_parameter bcg) ip k tol)))
        by (intros; apply quiet_unwrap, quiet_newton; assumption).
      assert (HP : forall ct, match ip with LENNARD_JONES_12_6 _ _ | LENNARD_JONES_65_6 _ _ | FOUR_EIGHT _ _ => True | _ => False end ->
        rootfinder_in_build (is_some build) (POLYNOMIAL ct) = true ->
        quiet (match build with None => Panic ExplicitPanic | Some q => unwrap_ok (polynomial_rootfinder q (p_Z p1) (p_Z p2) (p_m p1) (p_m p2) (p_E p1) (bcg_impact_parameter bcg) ip ct) end)).
      { intros ct H1 H2. destruct build; [|discriminate H2]. apply quiet_unwrap, quiet_polynomial, H1. }
      destruct ip; try (destruct Himp; fail); try discriminate;
        unfold below_energy_threshold_single_root; rewrite ?Hinf;
        repeat match goal with |- context [if ?b then _ else _] => destruct b; cbn [bind] end;
        try (apply HN; exact I);
        destruct rf; try (apply HN; exact I); try discriminate Hc; try (exfalso; apply Himp; exact I); try (exfalso; apply (proj1 Himp); exact I);
        try (exfalso; exact (proj2 Himp)); try (apply HP; [exact I|exact Hb]).
    - intros x0. apply quiet_bind.
      + destruct ip; try (destruct Himp; fail); try (apply quiet_gauss; apply Himp);
          (destruct si; [discriminate|try discriminate; exfalso; apply (proj2 Himp); reflexivity|apply quiet_gauss; exact I|apply quiet_gauss; exact I]).
      + intros th. destruct (nis_nan th); discriminate.
  Qed.
  Lemma no_derivative_newton Za Zb Ma Mb E p ip k tol :
    match ip with WW | KRC_MORSE _ _ _ _ _ | FOUR_EIGHT _ _ => True | _ => False end ->
    newton_rootfinder Za Zb Ma Mb E p ip (S k) tol = Panic ExplicitPanic.
  Proof.
    intros H. unfold newton_rootfinder. cbn [newton_loop].
    assert (HF : forall r a, distance_of_closest_approach_function r a Za Zb (ndiv (nmul E Mb) (nadd Ma Mb)) p ip = Panic ExplicitPanic \/
       exists v, distance_of_closest_approach_function r a Za Zb (ndiv (nmul E Mb) (nadd Ma Mb)) p ip = Ok v).
    { intros r a. destruct ip; try destruct H; cbn [distance_of_closest_approach_function]; [|right; eauto ..].
      unfold doca_tungsten_tungsten_cubic_spline. cbv zeta. destruct (nle _ _); [|right; eauto]. destruct (nis_nan r); [left; reflexivity|right].
      unfold doca_function_transformed. cbn [phi bind]. eauto. }
    match goal with |- bind ?x _ = _ => destruct (HF _ _ : x = _ \/ exists v, x = _) as [-> | (v & ->)]; [reflexivity|] end.
    cbn [bind]. destruct ip; try destruct H; reflexivity.
  Qed.
  Lemma unimplemented_panics build p1 p2 bcg o ip si rf :
    idx2 (o_interaction_potential o) (p_interaction_index p1) (p_interaction_index p2) = Ok ip ->
    idx2 (o_scattering_integral o) (p_interaction_index p1) (p_interaction_index p2) = Ok si ->
    idx2 (o_root_finder o) (p_interaction_index p1) (p_interaction_index p2) = Ok rf ->
    (match ip with WW | KRC_MORSE _ _ _ _ _ | FOUR_EIGHT _ _ => newton rf | COULOMB _ _ => ~ gauss si | _ => False end) ->
    calculate_binary_collision build p1 p2 bcg o = Panic ExplicitPanic.
  Proof.
    intros Hip Hsi Hrf H. unfold calculate_binary_collision. rewrite Hip, Hsi. cbn [bind].
    unfold distance_of_closest_approach. rewrite Hip, Hrf. cbn [bind].
    destruct ip; try (exfalso; exact H); cbn [bind].
    2: { destruct si; try (exfalso; apply H; exact I); reflexivity. }
    all: match goal with |- context [below_energy_threshold_single_root ?e ?i] => destruct (below_energy_threshold_single_root e i) end; cbn [bind];
      try (unfold unwrap_ok; rewrite no_derivative_newton by exact I; reflexivity).
    all: destruct rf as [[|?] ?| | |]; try (exfalso; exact H); unfold unwrap_ok; rewrite no_derivative_newton by exact I; reflexivity.
  Qed.
  Lemma lenz_jensen_magic Za Zb Ma Mb E p x0 : scattering_angle Za Zb Ma Mb E p x0 LENZ_JENSEN MAGIC = Panic ExplicitPanic.
  Proof. reflexivity. Qed.

  (** ** array lengths *)
  Lemma mbind_run {A B} (m : M F A) (f : A -> M F B) rng n a n1 : m rng n = Ok (a, n1) -> mbind m f rng n = f a rng n1.
  Proof. intros H. unfold mbind. rewrite H. reflexivity. Qed.
  Ltac replay H := apply mbind_ok in H; let a := fresh "a" in let k := fresh "k" in let E := fresh "E" in
    destruct H as (a & k & E & H); erewrite mbind_run by exact E.
  Lemma replace_Ec_accepted ft normal_ok (inp : InputData F) rng n ps mat o u n' l :
    input ft normal_ok inp rng n = Ok ((ps, mat, o, u), n') ->
    exists eu, energy_unit_value (mp_energy_unit (in_material inp)) = Ok eu /\ exists mat',
      input ft normal_ok (with_material (replace_Ec l (in_material inp)) inp) rng n = Ok ((ps, mat', o, u), n') /\
      mat_Ec mat' = map (fun e => nmul e eu) l /\ mat_m mat' = mat_m mat.
  Proof.
    intros H. unfold input in H. apply mbind_ok in H. destruct H as (mat0 & k0 & Em & H). apply mlift_ok in Em. destruct Em as (Em & ->).
    unfold material_new in Em. apply bind_ok in Em. destruct Em as (eu & Heu & Em). apply bind_ok in Em. destruct Em as (mu & Hmu & Em).
    apply bind_ok in Em. destruct Em as (g & Hg & Em). injection Em as <-.
    exists eu. split; [exact Heu|]. unfold input, material_new. cbn [in_material with_material in_options in_particle in_geometry replace_Ec mp_energy_unit mp_mass_unit].
    rewrite Heu, Hmu, Hg. cbn [bind]. erewrite mbind_run by reflexivity. cbv zeta in H |- *.
    repeat replay H. apply mret_ok in H. destruct H as (H & ->). injection H as -> -> -> ->.
    eexists. split; [reflexivity|]. cbn. auto.
  Qed.
  Lemma expand_Ed_long (l : list F) (b k : nat) (rng : Rng F) : 2 <= length l -> mlift (expand_Ed l b) rng k = Ok (l, k).
  Proof. intros Hl. unfold expand_Ed. replace (Nat.leb (length l) 1) with false by (symmetry; apply Nat.leb_gt; lia). reflexivity. Qed.
  Lemma fold_max_lt (l : list nat) (b : nat) : Forall (fun i => i < b) l -> forall i, i < b -> fold_left Nat.max l i < b.
  Proof. induction 1 as [|j l Hj _ IH]; intros i Hi; cbn; [exact Hi|]. apply IH. lia. Qed.
  Lemma max_below_long (l : list nat) (m b k : nat) (rng : Rng F) : 2 <= length l -> Forall (fun i => i < b) l ->
    mlift (max_below (expand_indices l m) b) rng k = Ok (tt, k).
  Proof.
    intros Hl Hb. unfold expand_indices. replace (Nat.leb (length l) 1) with false by (symmetry; apply Nat.leb_gt; lia).
    destruct l as [|i l]; [cbn in Hl; lia|]. cbn [max_below]. inversion Hb; subst.
    replace (Nat.ltb (fold_left Nat.max l i) b) with true by (symmetry; apply Nat.ltb_lt; apply fold_max_lt; assumption). reflexivity.
  Qed.
  Lemma replace_Ed_accepted ft normal_ok (inp : InputData F) rng n ps mat o u n' l : 2 <= length l ->
    input ft normal_ok inp rng n = Ok ((ps, mat, o, u), n') ->
    exists eu, energy_unit_value (mp_energy_unit (in_material inp)) = Ok eu /\ exists mat',
      input ft normal_ok (with_material (replace_Ed l (in_material inp)) inp) rng n = Ok ((ps, mat', o, u), n') /\
      mat_Ed mat' = map (fun e => nmul e eu) l /\ mat_m mat' = mat_m mat.
  Proof.
    intros Hl H. unfold input in H. apply mbind_ok in H. destruct H as (mat0 & k0 & Em & H). apply mlift_ok in Em. destruct Em as (Em & ->).
    unfold material_new in Em. apply bind_ok in Em. destruct Em as (eu & Heu & Em). apply bind_ok in Em. destruct Em as (mu & Hmu & Em).
    apply bind_ok in Em. destruct Em as (g & Hg & Em). injection Em as <-.
    exists eu. split; [exact Heu|]. unfold input, material_new. cbn [in_material with_material in_options in_particle in_geometry replace_Ed mp_energy_unit mp_mass_unit].
    rewrite Heu, Hmu, Hg. cbn [bind]. erewrite mbind_run by reflexivity. cbv zeta in H |- *.
    do 5 replay H. apply mbind_ok in H. destruct H as (a5 & k5 & E5 & H). apply mlift_ok in E5. destruct E5 as (E5 & ->).
    erewrite mbind_run; [|cbn [mat_Ed mp_Ed replace_Ed]; apply expand_Ed_long; rewrite map_length; exact Hl].
    repeat replay H. apply mret_ok in H. destruct H as (H & ->). injection H as -> -> -> ->.
    eexists. split; [reflexivity|]. cbn. auto.
  Qed.
  Lemma replace_index_accepted ft normal_ok (inp : InputData F) rng n ps mat o u n' l : 2 <= length l ->
    Forall (fun i => i < length (o_interaction_potential o)) l ->
    input ft normal_ok inp rng n = Ok ((ps, mat, o, u), n') ->
    exists mat', input ft normal_ok (with_material (replace_interaction_index l (in_material inp)) inp) rng n = Ok ((ps, mat', o, u), n') /\
      mat_interaction_index mat' = l /\ mat_m mat' = mat_m mat.
  Proof.
    intros Hl Hb H. pose proof (input_inv _ _ _ _ _ _ _ _ _ _ H) as (Ho & _). subst o.
    unfold input in H. apply mbind_ok in H. destruct H as (mat0 & k0 & Em & H). apply mlift_ok in Em. destruct Em as (Em & ->).
    unfold material_new in Em. apply bind_ok in Em. destruct Em as (eu & Heu & Em). apply bind_ok in Em. destruct Em as (mu & Hmu & Em).
    apply bind_ok in Em. destruct Em as (g & Hg & Em). injection Em as <-.
    unfold input, material_new. cbn [in_material with_material in_options in_particle in_geometry replace_interaction_index mp_energy_unit mp_mass_unit].
    rewrite Heu, Hmu, Hg. cbn [bind]. erewrite mbind_run by reflexivity. cbv zeta in H |- *.
    do 11 replay H. apply mbind_ok in H. destruct H as (bb & kb & Eb & H). apply mlift_ok in Eb. destruct Eb as (Eb & ->); destruct bb.
    erewrite mbind_run; [|cbn [mat_interaction_index set_mat_arrays mp_interaction_index replace_interaction_index]; apply max_below_long; [exact Hl|exact Hb]].
    repeat replay H. apply mret_ok in H. destruct H as (H & ->). injection H as -> -> ->.
    eexists. split; [reflexivity|]. cbn [mat_interaction_index set_mat_arrays mp_interaction_index mat_m]. split; [|reflexivity].
    unfold expand_indices. cbn [mp_interaction_index replace_interaction_index]. replace (Nat.leb (length l) 1) with false by (symmetry; apply Nat.leb_gt; lia). reflexivity.
  Qed.
  Lemma accepted_lengths ft normal_ok (inp : InputData F) rng n ps mat o u n' :
    input ft normal_ok inp rng n = Ok ((ps, mat, o, u), n') ->
    let species := length (mat_m mat) in
    let entries := length (pp_Z (in_particle inp)) in
    length (mat_Z mat) = species /\ length (mat_Eb mat) = species /\ length (mat_Es mat) = species /\
    (length (mp_Ed (in_material inp)) <= 1 -> length (mat_Ed mat) = species) /\
    (length (mp_interaction_index (in_material inp)) <= 1 -> length (mat_interaction_index mat) = species) /\
    length (pp_m (in_particle inp)) = entries /\ length (pp_E (in_particle inp)) = entries /\
    length (pp_pos (in_particle inp)) = entries /\ length (pp_dir (in_particle inp)) = entries /\
    (o_use_hdf5 o = false -> entries <= length (pp_N (in_particle inp)) /\ entries <= length (pp_Ec (in_particle inp)) /\ entries <= length (pp_Es (in_particle inp))).
  Proof.
    intros H species entries. apply input_inv in H.
    destruct H as (-> & mat0 & Ed & lu & eu & mu & Hm0 & L1 & L2 & L3 & HEd & Hmat & _ & _ & _ & _ & L4 & L5 & L6 & L7 & _ & _ & _ & _ & _ & Hps & _).
    unfold material_new in Hm0. apply bind_ok in Hm0. destruct Hm0 as (eu0 & Heu & Hm0). apply bind_ok in Hm0. destruct Hm0 as (mu0 & Hmu & Hm0).
    apply bind_ok in Hm0. destruct Hm0 as (g & Hg & Hm0). injection Hm0 as <-. cbn [mat_m mat_Z mat_Eb mat_Es mat_Ed mat_interaction_index] in *.
    subst mat species entries. cbn [mat_m mat_Z mat_Eb mat_Es mat_Ed mat_interaction_index set_mat_arrays].
    repeat split; try congruence.
    - intros Hl. unfold expand_Ed in HEd. rewrite map_length in HEd. replace (Nat.leb (length (mp_Ed (in_material inp))) 1) with true in HEd by (symmetry; apply Nat.leb_le; exact Hl).
      apply bind_ok in HEd. destruct HEd as (d & _ & HEd). injection HEd as <-. apply repeat_length.
    - intros Hl. unfold expand_indices. replace (Nat.leb (length (mp_interaction_index (in_material inp))) 1) with true by (symmetry; apply Nat.leb_le; exact Hl). apply repeat_length.
    - apply make_particles_entries in Hps; [|assumption]. apply Hps.
    - apply make_particles_entries in Hps; [|assumption]. apply Hps.
    - apply make_particles_entries in Hps; [|assumption]. apply Hps.
  Qed.

  (** ** directions and the length unit *)
  Definition scaled_dir (lu lu' : F) (p p' : ParticleInput F) : Prop :=
    exists wx wy wz, pi_ux p = nmul wx lu /\ pi_uy p = nmul wy lu /\ pi_uz p = nmul wz lu /\
      pi_ux p' = nmul wx lu' /\ pi_uy p' = nmul wy lu' /\ pi_uz p' = nmul wz lu' /\ pi_E p' = pi_E p.
  Lemma draw_scaled_other normal_ok lu d rng n v k : draw_scaled normal_ok lu d rng n = Ok (v, k) ->
    exists w, v = nmul w lu /\ forall lu', draw_scaled normal_ok lu' d rng n = Ok (nmul w lu', k).
  Proof.
    unfold draw_scaled. intros H. apply mbind_ok in H. destruct H as (w & n1 & Hw & H). apply mret_ok in H. destruct H as (-> & ->).
    exists w. split; [reflexivity|]. intros lu'. erewrite mbind_run by exact Hw. reflexivity.
  Qed.
  Lemma draw_direction_other normal_ok lu is_x d rng n v k : draw_direction false normal_ok lu is_x d rng n = Ok (v, k) ->
    exists w, v = nmul w lu /\ forall lu', draw_direction false normal_ok lu' is_x d rng n = Ok (nmul w lu', k).
  Proof.
    intros H. destruct d; cbn [draw_direction] in *; try (apply draw_scaled_other; exact H).
    apply mbind_ok in H. destruct H as (t & n1 & Ht & H). apply mret_ok in H. destruct H as (-> & ->).
    exists v0. split; [reflexivity|]. intros lu'. erewrite mbind_run by exact Ht. reflexivity.
  Qed.
  Lemma make_particle_other normal_ok lu lu' eu mu m Z E Ec Es ii pos dir rng n p k :
    make_particle false normal_ok lu eu mu m Z E Ec Es ii pos dir rng n = Ok (p, k) ->
    exists p', make_particle false normal_ok lu' eu mu m Z E Ec Es ii pos dir rng n = Ok (p', k) /\ scaled_dir lu lu' p p'.
  Proof.
    destruct pos as ((x, y), z), dir as ((cx, cy), cz). unfold make_particle. intros H.
    apply mbind_ok in H. destruct H as (e & n1 & He & H). apply mbind_ok in H. destruct H as (vx & n2 & Hx & H).
    apply mbind_ok in H. destruct H as (vy & n3 & Hy & H). apply mbind_ok in H. destruct H as (vz & n4 & Hz & H).
    apply mbind_ok in H. destruct H as (ux & n5 & Hux & H). apply mbind_ok in H. destruct H as (uy & n6 & Huy & H).
    apply mbind_ok in H. destruct H as (uz & n7 & Huz & H). apply mret_ok in H. destruct H as (-> & ->).
    apply draw_scaled_other in Hx, Hy, Hz. apply draw_direction_other in Hux, Huy, Huz.
    destruct Hx as (wx & _ & Hx), Hy as (wy & _ & Hy), Hz as (wz & _ & Hz), Hux as (a & -> & Hux), Huy as (b & -> & Huy), Huz as (c & -> & Huz).
    eexists. split.
    - erewrite mbind_run by exact He. erewrite mbind_run by apply Hx. erewrite mbind_run by apply Hy. erewrite mbind_run by apply Hz.
      erewrite mbind_run by apply Hux. erewrite mbind_run by apply Huy. erewrite mbind_run by apply Huz. reflexivity.
    - exists a, b, c. cbn. repeat split.
  Qed.
  Lemma mrepeat_other {A} (R : A -> A -> Prop) (m m' : M F A) : (forall rng n a k, m rng n = Ok (a, k) -> exists a', m' rng n = Ok (a', k) /\ R a a') ->
    forall N rng n l k, mrepeat N m rng n = Ok (l, k) -> exists l', mrepeat N m' rng n = Ok (l', k) /\ Forall2 R l l'.
  Proof.
    intros Hm. induction N as [|N IH]; intros rng n l k H; cbn [mrepeat] in *.
    - apply mret_ok in H. destruct H as (-> & ->). exists []. split; [reflexivity|constructor].
    - apply mbind_ok in H. destruct H as (a & n1 & Ha & H). apply mbind_ok in H. destruct H as (l1 & n2 & Hl & H). apply mret_ok in H. destruct H as (-> & ->).
      destruct (Hm _ _ _ _ Ha) as (a' & Ha' & HR). destruct (IH _ _ _ _ Hl) as (l' & Hl' & HF). exists (a' :: l').
      erewrite mbind_run by exact Ha'. erewrite mbind_run by exact Hl'. split; [reflexivity|constructor; assumption].
  Qed.
  Lemma make_entries_other normal_ok lu lu' u' eu mu pp ii : forall is rng n ps k,
    make_entries false normal_ok lu eu mu pp ii is rng n = Ok (ps, k) ->
    exists ps', make_entries false normal_ok lu' eu mu (replace_length_unit u' pp) ii is rng n = Ok (ps', k) /\ Forall2 (scaled_dir lu lu') ps ps'.
  Proof.
    induction is as [|i is IH]; intros rng n ps k H; cbn [make_entries] in *.
    - apply mret_ok in H. destruct H as (-> & ->). exists []. split; [reflexivity|constructor].
    - apply mbind_ok in H. destruct H as (l & n1 & Hl & H). apply mbind_ok in H. destruct H as (l1 & n2 & Hl1 & H). apply mret_ok in H. destruct H as (-> & ->).
      destruct (IH _ _ _ _ Hl1) as (ps' & Hps' & HF).
      assert (He : exists l', make_entry false normal_ok lu' eu mu (replace_length_unit u' pp) ii i rng n = Ok (l', n1) /\ Forall2 (scaled_dir lu lu') l l').
      { unfold make_entry in *. do 9 replay Hl. eapply mrepeat_other; [|exact Hl]. intros. eapply make_particle_other. eassumption. }
      destruct He as (l' & Hl' & HF'). exists (l' ++ ps'). erewrite mbind_run by exact Hl'. erewrite mbind_run by exact Hps'. split; [reflexivity|].
      apply Forall2_app; assumption.
  Qed.
  Lemma other_length_unit ft normal_ok (inp : InputData F) rng n ps mat o u n' unit_ lu' :
    ft_hdf5 ft = None -> length_unit_value unit_ = Ok lu' ->
    input ft normal_ok inp rng n = Ok ((ps, mat, o, u), n') ->
    exists ps' u' lu, length_unit_value (pp_length_unit (in_particle inp)) = Ok lu /\
      input ft normal_ok (with_particles (replace_length_unit unit_ (in_particle inp)) inp) rng n = Ok ((ps', mat, o, u'), n') /\
      Forall2 (scaled_dir lu lu') ps ps'.
  Proof.
    intros Hft Hlu H. unfold input in *. cbv zeta in H. do 14 (apply mbind_ok in H; let a := fresh "a" in let k := fresh "k" in let E := fresh "E" in destruct H as (a & k & E & H)).
    cbv zeta in H.
    apply mbind_ok in H. destruct H as (lu & q1 & Elu & H). apply mlift_ok in Elu. destruct Elu as (Elu & ->).
    apply mbind_ok in H. destruct H as (eu & q2 & Eeu & H). apply mbind_ok in H. destruct H as (mu & q3 & Emu & H).
    apply mbind_ok in H. destruct H as (l & q4 & El & H). apply mret_ok in H. destruct H as (H & ->). injection H as -> -> -> ->.
    unfold make_particles in El. cbv zeta in El. rewrite Hft in El. destruct (o_use_hdf5 (in_options inp)) eqn:Hh; [discriminate El|].
    cbn [is_some] in El. destruct (make_entries_other _ _ lu' unit_ _ _ _ _ _ _ _ _ _ El) as (ps' & Hps' & HF).
    exists ps'. eexists. exists lu. split; [exact Elu|]. split; [|exact HF].
    cbv zeta.
    do 14 (erewrite mbind_run by eassumption). cbv zeta.
    erewrite mbind_run; [|unfold mlift; cbn [in_particle with_particles replace_length_unit pp_length_unit]; rewrite Hlu; reflexivity].
    erewrite mbind_run by exact Eeu. erewrite mbind_run by exact Emu.
    erewrite mbind_run; [reflexivity|]. unfold make_particles. cbv zeta. cbn [in_options with_particles]. rewrite Hft, Hh. exact Hps'.
  Qed.
End Input.

Open Scope nat_scope.
Lemma Forall2_nth_r {A B} (P : A -> B -> Prop) l l' i b : Forall2 P l l' -> nth_error l' i = Some b -> exists a, nth_error l i = Some a /\ P a b.
Proof. intros H. revert i. induction H; intros i Hi; [destruct i; discriminate|]. destruct i as [|i]; cbn in *; [injection Hi as <-; eauto|auto]. Qed.
Lemma Forall2_len {A B} (P : A -> B -> Prop) l l' : Forall2 P l l' -> length l = length l'.
Proof. induction 1; cbn; congruence. Qed.
Lemma nth_error_seq0 n i j : nth_error (seq 0 n) i = Some j -> j = i.
Proof.
  intros H. assert (Hi : i < length (seq 0 n)) by (apply nth_error_Some; congruence). rewrite seq_length in Hi.
  apply (nth_error_nth _ _ 0) in H. rewrite seq_nth in H by exact Hi. lia.
Qed.
Open Scope R_scope.
Lemma normal_scale wx wy wz k x : 0 < k ->
  (x * k) / sqrt (wx * k * (wx * k) + wy * k * (wy * k) + wz * k * (wz * k)) = x / sqrt (wx * wx + wy * wy + wz * wz).
Proof.
  intros Hk. set (s := wx * wx + wy * wy + wz * wz).
  assert (Hs : 0 <= s) by (unfold s; nra).
  replace (wx * k * (wx * k) + wy * k * (wy * k) + wz * k * (wz * k)) with (k * k * s) by (unfold s; ring).
  rewrite sqrt_mult by nra. rewrite sqrt_square by lra. unfold Rdiv.
  destruct (Req_dec (sqrt s) 0) as [E|E].
  - rewrite E, Rmult_0_r, Rinv_0. ring.
  - field. split; [exact E|lra].
Qed.
Lemma same_direction o lu lu' (i i' : ParticleInput R) : 0 < lu -> 0 < lu' -> scaled_dir lu lu' i i' ->
  match from_input i o, from_input i' o with
  | Ok p, Ok p' => p_dir p = p_dir p'
  | Panic k, Panic k' => k = k'
  | _, _ => False
  end.
Proof.
  intros H H' (wx & wy & wz & E1 & E2 & E3 & E4 & E5 & E6 & E7). unfold from_input. rewrite E1, E2, E3, E4, E5, E6, E7.
  rewrite !nmul_R, !nadd_R, !nsqrt_R. rewrite !ndiv_R. rewrite !(normal_scale wx wy wz lu) by exact H. rewrite !(normal_scale wx wy wz lu') by exact H'.
  unfold rassert. destruct (nlt (nabs (wx / sqrt (wx * wx + wy * wy + wz * wz))) _); cbn [bind]; [|reflexivity].
  destruct (nlt _ _); reflexivity.
Qed.
