(** * ProofsToml.v - reading back a written document *)
From Coq Require Import ZArith List Bool String Lia.
From Verif Require Import Num ModelTypes ModelParticle ModelGeometry ModelMaterial ModelInput ModelToml SpecInput SpecToml ProofsBase.
Import ListNotations.
Open Scope string_scope.
Open Scope nat_scope.

Section Read.
  Context {F : Type} {NF : Num F} (parse : string -> option F).

  Lemma lookup_in {A} (l : list (string * A)) k v : NoDup (map fst l) -> In (k, v) l -> lookup k l = Some v.
  Proof.
    induction l as [|[k' v'] l IH]; cbn [map fst lookup In]; intros Hd Hi; [destruct Hi|].
    apply NoDup_cons_iff in Hd. destruct Hd as (Hn & Hd). destruct Hi as [E|Hi].
    - injection E as -> ->. rewrite String.eqb_refl. reflexivity.
    - destruct (String.eqb_spec k' k) as [->|_]; [|auto]. destruct Hn. exact (in_map fst _ _ Hi).
  Qed.
  Lemma lookup_some {A} (l : list (string * A)) k v : lookup k l = Some v -> In (k, v) l.
  Proof.
    induction l as [|[k' v'] l IH]; cbn [lookup In]; intros H; [discriminate|].
    destruct (String.eqb_spec k' k) as [->|_]; [injection H as ->; auto|auto].
  Qed.
  Lemma lookup_none {A} (l : list (string * A)) k : ~ In k (map fst l) -> lookup k l = None.
  Proof.
    induction l as [|[k' v'] l IH]; cbn [map fst lookup In]; intros H; [reflexivity|].
    destruct (String.eqb_spec k' k) as [->|_]; [destruct H; auto|auto].
  Qed.
  Lemma field_given {A} (d : Toml F -> Res A) l k v a : keys_distinct l -> given l k v -> d v = Ok a -> field k d (TTable l) = Ok a.
  Proof. intros Hd Hg E. unfold field. rewrite (lookup_in _ _ _ Hd Hg). exact E. Qed.
  Lemma field_says {A} (d : Toml F -> Res A) (w : A -> Toml F) l k def a : keys_distinct l -> says l k w def a ->
    (forall x, d (w x) = Ok x) -> field_or k d def (TTable l) = Ok a.
  Proof.
    intros Hd [Hg|(Ho & ->)] E; unfold field_or; [rewrite (lookup_in _ _ _ Hd Hg); apply E|rewrite (lookup_none _ _ Ho); reflexivity].
  Qed.
  Lemma field_omitted {A} (d : Toml F -> Res A) l k : omitted l k -> field k d (TTable l) = Panic UnwrapErr.
  Proof. intros H. unfold field. rewrite (lookup_none _ _ H). reflexivity. Qed.

  (** values *)
  Lemma rt_nat n : de_usize (w_nat n : Toml F) = Ok n.
  Proof. unfold de_usize, w_nat. replace (0 <=? Z.of_nat n)%Z with true by (symmetry; apply Z.leb_le; lia). rewrite Nat2Z.id. reflexivity. Qed.
  Lemma rt_list {A} (d : Toml F -> Res A) (w : A -> Toml F) l : (forall x, In x l -> d (w x) = Ok x) -> de_vec d (w_list w l) = Ok l.
  Proof.
    unfold de_vec, w_list. induction l as [|a l IH]; intros H; [reflexivity|].
    cbn [map mapM]. rewrite (H a) by (left; reflexivity). cbn [bind]. cbn in IH. rewrite IH by (intros x Hx; apply H; right; exact Hx). reflexivity.
  Qed.
  Lemma rt_floats l : de_vec de_f64 (w_floats l : Toml F) = Ok l.
  Proof. apply rt_list. reflexivity. Qed.
  Lemma rt_nats l : de_vec de_usize (w_nats l : Toml F) = Ok l.
  Proof. apply rt_list. intros; apply rt_nat. Qed.
  Lemma rt_matrix {A} (d : Toml F -> Res A) w l : (forall x, d (w x) = Ok x) -> de_vec (de_vec d) (w_matrix w l) = Ok l.
  Proof. intros H. apply rt_list. intros; apply rt_list. intros; apply H. Qed.
  Lemma rt_pair p : de_pair de_f64 de_f64 (w_pair p : Toml F) = Ok p.
  Proof. destruct p. reflexivity. Qed.
  Lemma rt_triple {A} (d : Toml F -> Res A) w t : d (w (fst (fst t))) = Ok (fst (fst t)) -> d (w (snd (fst t))) = Ok (snd (fst t)) ->
    d (w (snd t)) = Ok (snd t) -> de_triple d (w_triple w t) = Ok t.
  Proof. destruct t as [[a b] c]. cbn [fst snd]. intros H1 H2 H3. unfold de_triple, w_triple. cbn [fst snd]. rewrite H1, H2, H3. reflexivity. Qed.
  Lemma rt_dist d : de_distribution (w_dist d : Toml F) = Ok d.
  Proof. destruct d; reflexivity. Qed.
  Lemma rt_stopping d : de_stopping (w_stopping d : Toml F) = Ok d.
  Proof. destruct d; reflexivity. Qed.
  Lemma rt_surface d : de_surface (w_surface d : Toml F) = Ok d.
  Proof. destruct d as [c|c| | |]; try destruct c; reflexivity. Qed.
  Lemma rt_bulk d : de_bulk (w_bulk d : Toml F) = Ok d.
  Proof. destruct d; reflexivity. Qed.
  Lemma rt_mfp d : de_mean_free_path (w_mean_free_path d : Toml F) = Ok d.
  Proof. destruct d; reflexivity. Qed.
  Lemma rt_potential d : de_potential (w_potential d : Toml F) = Ok d.
  Proof. destruct d; reflexivity. Qed.
  Lemma variant_usize (name k : string) (n : nat) {B} (l : list (string * Toml F)) (f : nat -> Res B) : lookup k l = Some (w_nat n) ->
    (let! x := field k de_usize (TTable l) in f x) = f n.
  Proof. intros H. unfold field. rewrite H, rt_nat. reflexivity. Qed.
  Lemma rt_scattering d : de_scattering (w_scattering d : Toml F) = Ok d.
  Proof.
    destruct d; try reflexivity. unfold de_scattering, w_scattering, w_variant, de_enum. cbn [lookup String.eqb Ascii.eqb Bool.eqb].
    unfold field. cbn [lookup String.eqb Ascii.eqb Bool.eqb]. rewrite rt_nat. reflexivity.
  Qed.
  Lemma rt_rootfinder d : de_rootfinder (w_rootfinder d : Toml F) = Ok d.
  Proof.
    destruct d; try reflexivity; unfold de_rootfinder, w_rootfinder, w_variant, de_enum; cbn [lookup String.eqb Ascii.eqb Bool.eqb];
      unfold field; cbn [lookup String.eqb Ascii.eqb Bool.eqb]; rewrite ?rt_nat; reflexivity.
  Qed.
  Lemma rt_u32 n : (Z.of_nat n < 2 ^ 32)%Z -> de_u32 (w_nat n : Toml F) = Ok n.
  Proof.
    intros H. unfold de_u32, w_nat. replace (0 <=? Z.of_nat n)%Z with true by (symmetry; apply Z.leb_le; lia).
    replace (Z.of_nat n <? 2 ^ 32)%Z with true by (symmetry; apply Z.ltb_lt; exact H). cbn [andb]. rewrite Nat2Z.id. reflexivity.
  Qed.

  (** units *)
  Lemma unit_lookup {U} (known known' : list (string * U)) (other : option F -> U) s u :
    NoDup (map fst known') -> (forall e, In e known <-> In e known') -> names parse known other s u ->
    match lookup s known' with Some v => v | None => other (parse s) end = u.
  Proof.
    intros Hd He [H|(H & ->)].
    - rewrite (lookup_in _ _ u Hd); [reflexivity|apply He; exact H].
    - destruct (lookup s known') eqn:El; [|reflexivity]. destruct H. apply (in_map fst _ (s, u)). apply He. apply lookup_some. exact El.
  Qed.
  Lemma length_unit_read s u : names_length parse s u -> de_length_unit parse (TString s) = Ok u.
  Proof.
    intros H. unfold de_length_unit, de_string, length_unit_of. cbn [bind]. f_equal. refine (unit_lookup _ _ _ _ _ _ _ H).
    - repeat constructor; cbn; intuition discriminate.
    - intros e. cbn. intuition.
  Qed.
  Lemma energy_unit_read s u : names_energy parse s u -> de_energy_unit parse (TString s) = Ok u.
  Proof.
    intros H. unfold de_energy_unit, de_string, energy_unit_of. cbn [bind]. f_equal. refine (unit_lookup _ _ _ _ _ _ _ H).
    - repeat constructor; cbn; intuition discriminate.
    - intros e. cbn. intuition.
  Qed.
  Lemma mass_unit_read s u : names_mass parse s u -> de_mass_unit parse (TString s) = Ok u.
  Proof.
    intros H. unfold de_mass_unit, de_string, mass_unit_of. cbn [bind]. f_equal. refine (unit_lookup _ _ _ _ _ _ _ H).
    - repeat constructor; cbn; intuition discriminate.
    - intros e. cbn. intuition.
  Qed.

  (** sections *)
  Lemma field_omitted_or {A} (d : Toml F -> Res A) l k def : omitted l k -> field_or k d def (TTable l) = Ok def.
  Proof. intros H. unfold field_or. rewrite (lookup_none _ _ H). reflexivity. Qed.
  Ltac value :=
    first [reflexivity|apply rt_floats|apply rt_nats|apply rt_nat|apply rt_stopping|apply rt_mfp|apply rt_surface|apply rt_bulk
          |apply rt_matrix; first [exact rt_potential|exact rt_scattering|exact rt_rootfinder|reflexivity]
          |apply rt_list; intros; first [apply rt_dist|apply rt_pair|apply rt_triple; first [apply rt_dist|apply rt_nat|reflexivity]]
          ].
  Ltac next Hd :=
    match goal with
    | K : names_length parse ?s ?u, H : given ?l ?k (TString ?s) |- context [field ?k (de_length_unit parse) (TTable ?l)] =>
        rewrite (field_given _ l k _ u Hd H (length_unit_read s u K)); cbn [bind]; clear H K
    | K : names_energy parse ?s ?u, H : given ?l ?k (TString ?s) |- context [field ?k (de_energy_unit parse) (TTable ?l)] =>
        rewrite (field_given _ l k _ u Hd H (energy_unit_read s u K)); cbn [bind]; clear H K
    | K : names_mass parse ?s ?u, H : given ?l ?k (TString ?s) |- context [field ?k (de_mass_unit parse) (TTable ?l)] =>
        rewrite (field_given _ l k _ u Hd H (mass_unit_read s u K)); cbn [bind]; clear H K
    | H : given ?l ?k ?v |- context [@field _ ?A ?k ?d (TTable ?l)] =>
        rewrite (field_given (A := A) d l k v _ Hd H ltac:(value)); cbn [bind]; clear H
    | H : says ?l ?k ?w ?v ?a |- context [field_or ?k ?d ?v' (TTable ?l)] =>
        replace v' with v by reflexivity; rewrite (field_says d w l k v a Hd H); [cbn [bind]; clear H|intros; value]
    end.
  Ltac split_all H := repeat match type of H with _ /\ _ => let h := fresh "K" in destruct H as (h & H) end;
    repeat match goal with K : exists _, _ /\ _ |- _ => let s := fresh "s" in let k := fresh "K" in destruct K as (s & k & K) end.
  Lemma options_read l name o : options_written l name o -> read_options (TTable l) = Ok (name, o).
  Proof.
    intros (Hd & H). split_all H. unfold read_options. repeat next Hd. destruct o; reflexivity.
  Qed.
  Lemma material_read l p : material_written parse l p -> read_material parse (TTable l) = Ok p.
  Proof. intros (Hd & H). split_all H. unfold read_material. repeat next Hd. destruct p; reflexivity. Qed.
  Lemma particles_read l p : particles_written parse l p -> read_particles parse (TTable l) = Ok p.
  Proof. intros (Hd & H). split_all H. unfold read_particles. repeat next Hd. destruct p; reflexivity. Qed.
  Lemma mesh0d_read l p : mesh0d_written parse l p -> read_mesh0d parse (TTable l) = Ok p.
  Proof. intros (Hd & H). unfold unit_written in H. split_all H. unfold read_mesh0d. repeat next Hd. destruct p; reflexivity. Qed.
  Lemma mesh1d_read l p : mesh1d_written parse l p -> read_mesh1d parse (TTable l) = Ok p.
  Proof. intros (Hd & H). unfold unit_written in H. split_all H. unfold read_mesh1d. repeat next Hd. destruct p; reflexivity. Qed.
  Lemma mesh2d_read l p : mesh2d_written parse l p -> read_mesh2d parse (TTable l) = Ok p.
  Proof. intros (Hd & H). unfold unit_written in H. split_all H. unfold read_mesh2d. repeat next Hd. destruct p; reflexivity. Qed.
  Lemma homogeneous2d_read l p : homogeneous2d_written parse l p -> read_homogeneous2d parse (TTable l) = Ok p.
  Proof. intros (Hd & H). unfold unit_written in H. split_all H. unfold read_homogeneous2d. repeat next Hd. destruct p; reflexivity. Qed.
  Lemma sphere_read l p : sphere_written parse l p -> read_sphere parse (TTable l) = Ok p.
  Proof. intros (Hd & H). unfold unit_written in H. split_all H. unfold read_sphere. repeat next Hd. destruct p; reflexivity. Qed.
  Lemma trimesh_read l p : trimesh_written parse l p -> read_trimesh parse (TTable l) = Ok p.
  Proof.
    intros (Hd & H). unfold unit_written in H. split_all H. unfold read_trimesh.
    assert (E : de_vec (de_triple de_u32) (w_list (w_triple w_nat) (pti_indices p) : Toml F) = Ok (pti_indices p)).
    { apply rt_list. intros t Ht. pose proof (proj1 (Forall_forall _ _) H t Ht) as (H1 & H2 & H3). apply rt_triple; apply rt_u32; assumption. }
    repeat next Hd. rewrite (field_given (de_vec (de_triple de_u32)) l "indices" _ _ Hd ltac:(eassumption) E). destruct p; reflexivity.
  Qed.
  Lemma file_read {G} (gw : list (string * Toml F) -> G -> Prop) rg build l name o m p g :
    (forall t g, gw t g -> rg (TTable t) = Ok g) -> file_written parse gw l name o m p g ->
    read_file parse rg build (TTable l) = Ok (name, mkInput o p m (build g)).
  Proof.
    intros Hg (Hd & (t1 & G1 & H1) & (t2 & G2 & H2) & (t3 & G3 & H3) & (t4 & G4 & H4)). unfold read_file.
    rewrite (field_given _ _ _ _ _ Hd G1 (options_read _ _ _ H1)). cbn [bind].
    rewrite (field_given _ _ _ _ _ Hd G2 (material_read _ _ H2)). cbn [bind].
    rewrite (field_given _ _ _ _ _ Hd G3 (particles_read _ _ H3)). cbn [bind].
    rewrite (field_given _ _ _ _ _ Hd G4 (Hg _ _ H4)). reflexivity.
  Qed.

  (** keys *)
  Lemma same_lookup keys (l l' : list (string * Toml F)) : keys_distinct l -> keys_distinct l' -> same_for keys l l' ->
    forall k, In k keys -> lookup k l = lookup k l'.
  Proof.
    intros Hd Hd' Hs k Hk. destruct (lookup k l) as [v|] eqn:E.
    - symmetry. apply lookup_in; [exact Hd'|]. apply Hs; [exact Hk|]. apply lookup_some. exact E.
    - destruct (lookup k l') as [v|] eqn:E'; [|reflexivity]. apply lookup_some in E'. apply Hs in E'; [|exact Hk].
      rewrite (lookup_in _ _ _ Hd E') in E. discriminate.
  Qed.
  Ltac same H := unfold field, field_or;
    repeat match goal with |- context [lookup ?k ?l] => rewrite (H k) by (unfold option_keys, material_keys, material_required, particle_keys, particle_required; cbn [In app]; tauto) end; reflexivity.
  Lemma same_options l l' : (forall k, In k option_keys -> lookup k l = lookup k l') -> read_options (TTable l) = read_options (TTable l' : Toml F).
  Proof. intros H. unfold read_options, field, field_or. rewrite !H by (cbn; tauto). reflexivity. Qed.
  Lemma same_material l l' : (forall k, In k material_keys -> lookup k l = lookup k l') -> read_material parse (TTable l) = read_material parse (TTable l').
  Proof. intros H. unfold read_material, field, field_or. rewrite !H by (cbn; tauto). reflexivity. Qed.
  Lemma same_particles l l' : (forall k, In k particle_keys -> lookup k l = lookup k l') -> read_particles parse (TTable l) = read_particles parse (TTable l').
  Proof. intros H. unfold read_particles, field, field_or. rewrite !H by (cbn; tauto). reflexivity. Qed.

  Lemma bind_not {A B} (x : Res A) (f : A -> Res B) : (forall a b, f a <> Ok b) -> forall b, bind x f <> Ok b.
  Proof. intros H b. destruct x; cbn [bind]; [apply H|discriminate|discriminate]. Qed.
  Lemma omitted_not {A B} (d : Toml F -> Res A) l k (f : A -> Res B) : omitted l k -> forall b, bind (field k d (TTable l)) f <> Ok b.
  Proof. intros H b. rewrite (field_omitted _ _ _ H). discriminate. Qed.
  Ltac missing H := first [apply (omitted_not _ _ _ _ H)|apply bind_not; intros ?; missing H].
  Lemma material_missing l k : In k material_required -> omitted l k -> forall p, read_material parse (TTable l) <> Ok p.
  Proof.
    intros Hk H p. unfold read_material. cbn [material_required In] in Hk.
    repeat (destruct Hk as [<-|Hk]; [revert p; missing H|]). destruct Hk.
  Qed.
  Lemma particles_missing l k : In k particle_required -> omitted l k -> forall p, read_particles parse (TTable l) <> Ok p.
  Proof.
    intros Hk H p. unfold read_particles. cbn [particle_required In] in Hk.
    repeat (destruct Hk as [<-|Hk]; [revert p; missing H|]). destruct Hk.
  Qed.

  (** single indices *)
  Lemma expand_short (l : list nat) n : List.length l <= 1 -> expand_indices l n = repeat 0 n.
  Proof. intros H. unfold expand_indices. apply Nat.leb_le in H. rewrite H. reflexivity. Qed.
  Lemma mbind_ext {A B} (m : M F A) (f g : A -> M F B) rng n : (forall a k, f a rng k = g a rng k) -> mbind m f rng n = mbind m g rng n.
  Proof. intros H. unfold mbind. destruct (m rng n) as [(a & k)|e|]; auto. Qed.
  Lemma mbind_head {A B} (a : A) (f : A -> M F B) rng n : mbind (mlift (Ok a)) f rng n = f a rng n.
  Proof. reflexivity. Qed.
  Lemma material_index_ignored ft normal_ok (inp : InputData F) l rng n : List.length l <= 1 ->
    input ft normal_ok (with_material (replace_interaction_index l (in_material inp)) inp) rng n =
    input ft normal_ok (with_material (replace_interaction_index [] (in_material inp)) inp) rng n.
  Proof.
    intros H. unfold input, material_new. cbn [with_material in_options in_particle in_material in_geometry replace_interaction_index
      mp_energy_unit mp_mass_unit mp_Eb mp_Es mp_Ec mp_Ed mp_Z mp_m mp_interaction_index mp_surface_binding_model mp_bulk_binding_model].
    destruct (energy_unit_value _) as [eu|e|]; cbn [bind]; [|reflexivity|reflexivity].
    destruct (mass_unit_value _) as [mu|e|]; cbn [bind]; [|reflexivity|reflexivity].
    destruct (in_geometry inp) as [g|e|]; cbn [bind]; [|reflexivity|reflexivity].
    rewrite !mbind_head. cbv zeta. cbn [mat_m mat_Z mat_Eb mat_Es mat_Ec mat_Ed mat_interaction_index].
    rewrite (expand_short l _ H), (expand_short [] _ (le_S _ _ (le_n 0))). reflexivity.
  Qed.
  Lemma make_entries_index ft_h nok lu eu mu (pp : ParticleParameters F) l ii is :
    make_entries ft_h nok lu eu mu (replace_particle_index l pp) ii is = make_entries ft_h nok lu eu mu pp ii is.
  Proof. induction is as [|i is IH]; [reflexivity|]. cbn [make_entries]. rewrite IH. reflexivity. Qed.
  Lemma make_particles_index ft nok o lu eu mu (pp : ParticleParameters F) l ii :
    make_particles ft nok o lu eu mu (replace_particle_index l pp) ii = make_particles ft nok o lu eu mu pp ii.
  Proof. unfold make_particles. rewrite make_entries_index. reflexivity. Qed.
  Lemma particle_index_ignored ft normal_ok (inp : InputData F) l rng n : List.length l <= 1 ->
    input ft normal_ok (with_particles (replace_particle_index l (in_particle inp)) inp) rng n =
    input ft normal_ok (with_particles (replace_particle_index [] (in_particle inp)) inp) rng n.
  Proof.
    intros H. unfold input. cbv zeta. cbn [with_particles in_options in_particle in_material in_geometry
      replace_particle_index pp_interaction_index pp_length_unit pp_energy_unit pp_mass_unit pp_Z].
    rewrite (expand_short l _ H), (expand_short [] _ (le_S _ _ (le_n 0))).
    do 17 (apply mbind_ext; intros ? ?). rewrite !make_particles_index. reflexivity.
  Qed.
End Read.
