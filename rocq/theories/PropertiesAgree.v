(** * PropertiesAgree.v - C113: entry points that are given the same simulation return the same particles *)
From Coq Require Import ZArith List Bool Lia Reals Lra Floats.SpecFloat.
From Verif Require Import Num NumSF NumR ToyLibm ModelTypes ModelConsts ModelParticle ModelInteractions ModelGeometry ModelMaterial ModelBca
  ModelInput ModelLib SpecLib SpecTwo SpecR SpecShift ProofsBase ProofsTwo ProofsSpecies ProofsLib PropertiesTwo ProofsEntry ProofsInteractions ToyRun.
Import ListNotations.
Open Scope nat_scope.

(** ** A list of displacement energies that is longer than the list of species *)
Section Tail.
Context {F : Type} {NF : Num F}.
Definition with_Ed (l : list F) (mat : Material F) : Material F := {|
  mat_m := mat_m mat; mat_Z := mat_Z mat; mat_Eb := mat_Eb mat; mat_Es := mat_Es mat; mat_Ec := mat_Ec mat; mat_Ed := l;
  mat_interaction_index := mat_interaction_index mat; mat_geometry := mat_geometry mat;
  mat_surface_binding_model := mat_surface_binding_model mat; mat_bulk_binding_model := mat_bulk_binding_model mat |}.
Lemma longer_Ed (mat : Material F) l : length (mat_Z mat) = 1 -> idx l 0 = idx (mat_Ed mat) 0 ->
  same_target mat (with_Ed l mat) eq (fun _ => True).
Proof.
  intros HL HE. constructor; try (intros; reflexivity).
  - intros i j <-. reflexivity.
  - intros p mode. change (electronic_stopping_cross_sections (with_Ed l mat) p mode) with (electronic_stopping_cross_sections mat p mode).
    change (number_densities (with_Ed l mat)) with (number_densities mat).
    destruct (electronic_stopping_cross_sections mat p mode); cbn [agree]; auto. split; [intros i j <-; reflexivity|].
    intros x y z. destruct (number_densities mat x y z); cbn [agree]; auto.
  - intros r x y z _. unfold choose_with.
    change (get_cumulative_concentrations (with_Ed l mat) x y z) with (get_cumulative_concentrations mat x y z).
    apply agree_bind with (R := eq); [apply agree_eq; reflexivity|]. intros c ? <-.
    destruct (choose_index r 0 c) as [i|]; [|reflexivity].
    destruct i as [|i].
    + cbn [with_Ed mat_Z mat_m mat_Ec mat_Es mat_Ed mat_interaction_index]. rewrite HE.
      do 6 (apply agree_bind with (R := eq); [apply agree_eq; reflexivity|]; intros ? ? <-). cbn. repeat split.
    + cbn [with_Ed mat_Z]. assert (E : idx (mat_Z mat) (S i) = Panic IndexOOB).
      { unfold idx. rewrite (proj2 (nth_error_None _ _)) by lia. reflexivity. }
      rewrite E. reflexivity.
Qed.
Lemma run_all_longer_Ed build (mat : Material F) l o fuel ps rng n : length (mat_Z mat) = 1 -> (ps <> [] -> idx l 0 = idx (mat_Ed mat) 0) ->
  run_all build (with_Ed l mat) o fuel ps rng n = run_all build mat o fuel ps rng n.
Proof.
  intros HL HE. destruct ps as [|p0 ps0]; [reflexivity|]. specialize (HE ltac:(discriminate)). revert n.
  induction (p0 :: ps0) as [|p ps IH]; intro n; [reflexivity|]. cbn [run_all]. unfold mbind at 1 3.
  rewrite (st_single mat (with_Ed l mat) eq _ (longer_Ed mat l HL HE) build o fuel p rng n (fun _ => I)).
  destruct (single_ion_bca build mat o fuel p rng n) as [[out k]| |]; try reflexivity. unfold mbind. rewrite IH. reflexivity.
Qed.
End Tail.
Definition one_species_target {F} {NF : Num F} (Z2 m2 n2 Ec2 Es2 Eb2 : F) Ed := target_0d SBM_AVERAGE LU_ANGSTROM [Z2] [m2] [n2] [Ec2] [Es2] [Eb2] Ed [0].
Lemma one_species_target_ok {F} {NF : Num F} (Z2 m2 n2 Ec2 Es2 Eb2 : F) : exists mat : Material F,
  mat_Z mat = [Z2] /\ mat_Ed mat = [nmul (nZ 0) cEV] /\
  forall k, one_species_target Z2 m2 n2 Ec2 Es2 Eb2 (repeat (nZ 0) k) = Ok (with_Ed (repeat (nmul (nZ 0) cEV) k) mat).
Proof.
  assert (E0 : exists mat, one_species_target Z2 m2 n2 Ec2 Es2 Eb2 [nZ 0] = Ok mat).
  { unfold one_species_target, target_0d, material_new, mesh0d_new. cbn [mp_energy_unit mp_mass_unit energy_unit_value mass_unit_value bind m0i_length_unit length_unit_value]. eauto. }
  destruct E0 as (mat & E0). exists mat. pose proof E0 as E1.
  unfold one_species_target, target_0d, material_new, mesh0d_new in E1 |- *. cbn [mp_energy_unit mp_mass_unit energy_unit_value mass_unit_value bind m0i_length_unit length_unit_value mp_m mp_Z mp_Eb mp_Es mp_Ec mp_Ed mp_interaction_index mp_surface_binding_model mp_bulk_binding_model] in E1 |- *.
  assert (I : forall x y : Material F, Ok x = Ok y -> x = y) by congruence. apply I in E1. subst mat.
  split; [reflexivity|]. split; [reflexivity|]. intro k. unfold with_Ed. cbn [mat_m mat_Z mat_Eb mat_Es mat_Ec mat_interaction_index mat_geometry mat_surface_binding_model mat_bulk_binding_model].
  f_equal. f_equal. induction k as [|k IH]; [reflexivity|]. cbn [repeat map]. f_equal. exact IH.
Qed.

(** The C list interface for one species is the one for compounds.  The
    hypothesis holds for every double but -0. *)
Theorem C113_simple_and_compound_list :
  forall {F} {NF : Num F} (build : Build F) fuel velocities (Z1 m1 Ec1 Es1 Z2 m2 n2 Ec2 Es2 Eb2 : F) rng n,
    nadd (nZ 0) n2 = n2 ->
    simple_bca_list_c build fuel velocities Z1 m1 Ec1 Es1 Z2 m2 n2 Ec2 Es2 Eb2 rng n =
    compound_bca_list_c build fuel velocities Z1 m1 Ec1 Es1 [Z2] [m2] [n2] [Ec2] [Es2] [Eb2] rng n.
Proof.
  intros F NF build fuel vs Z1 m1 Ec1 Es1 Z2 m2 n2 Ec2 Es2 Eb2 rng n H0. unfold simple_bca_list_c, compound_bca_list_c.
  destruct (one_species_target_ok Z2 m2 n2 Ec2 Es2 Eb2) as (mat & HZ & HE & Ht). unfold one_species_target in Ht.
  change (@length F [Z2]) with 1. change (repeat 0 1) with [0].
  unfold mlift, mbind at 1 3. rewrite !Ht. cbv beta iota.
  unfold nsum. cbn [fold_left]. rewrite H0. unfold mbind at 1 2. set (ps := map _ vs).
  rewrite (run_all_longer_Ed build mat (repeat _ (length vs))), (run_all_longer_Ed build mat (repeat _ 1)); try (rewrite HZ; reflexivity).
  - reflexivity.
  - rewrite HE. reflexivity.
  - rewrite HE. unfold ps. destruct vs; [intro N; exfalso; apply N; reflexivity|reflexivity].
Qed.
Print Assumptions C113_simple_and_compound_list.

(** The tagged C interface reports the particles of the plain one. *)
Theorem C113_tagged_and_plain_list :
  forall {F} {NF : Num F} (build : Build F) fuel (a : InputTagged F) rng n,
    length (it_velocities a) <= length (it_weights a) -> length (it_velocities a) <= length (it_tags a) ->
    length (it_velocities a) <= length (it_positions a) ->
    agree_run (fun out rows => ot_len out = length rows /\ map physical_columns (ot_particles out) = map physical_columns rows)
      (compound_tagged_bca_list_c build fuel a rng n)
      (compound_bca_list_c build fuel (it_velocities a) (it_Z1 a) (it_m1 a) (it_Ec1 a) (it_Es1 a)
         (it_Z2 a) (it_m2 a) (it_n2 a) (it_Ec2 a) (it_Es2 a) (it_Eb2 a) rng n).
Proof.
  intros F NF build fuel a rng n L1 L2 L3.
  revert rng n. match goal with |- forall rng n, agree_run ?R (?x rng n) (?y rng n) => change (magree R x y) end.
  unfold compound_tagged_bca_list_c, compound_bca_list_c.
  eapply magree_bind; [apply magree_refl|]. intros mat ? <-.
  assert (HL : forall vs k, k + length vs <= length (it_velocities a) ->
    magree (Forall2 same_physics) (tagged_loop build mat (default_options true) fuel a (start_x (nsum (it_n2 a))) k vs)
      (run_all build mat (default_options true) fuel
        (map (velocity_ion (it_m1 a) (it_Z1 a) (it_Ec1 a) (it_Es1 a) (start_x (nsum (it_n2 a))) (nZ 1) 0%Z (mkV (nZ 0) (nZ 0) (nZ 0))) vs))).
  { induction vs as [|v vs IH]; intros k Hk; [apply magree_ret; constructor|]. cbn [length] in Hk. cbn [tagged_loop map run_all].
    assert (HI : forall A (l : list A), length (it_velocities a) <= length l -> exists x, idx l k = Ok x).
    { intros A l Hl. unfold idx. destruct (nth_error l k) eqn:E; [eauto|]. apply nth_error_None in E. lia. }
    unfold tagged_ion. destruct (HI _ _ L1) as (w & ->). destruct (HI _ _ L2) as (t & ->). destruct (HI _ _ L3) as (c & ->). cbn [bind].
    match goal with |- magree ?R (mbind (mlift (Ok ?p)) ?f) ?b => change (magree R (f p) b) end. cbv beta.
    eapply magree_bind.
    - apply (sp_single mat (default_options true) (default_options true)); [unfold same_physics_options; tauto|].
      unfold velocity_ion, literal_incident, same_physics. cbn. tauto.
    - intros out out' HO. eapply magree_bind; [apply IH; lia|]. intros outs outs' HOs. apply magree_ret. apply Forall2_app; assumption. }
  eapply magree_bind; [apply HL; lia|]. intros ps qs HP.
  rewrite !tagged_collect_spec. cbn [app]. apply magree_ret. cbn [ot_len ot_particles]. rewrite !map_length.
  change (@emitted F) with (@reported F).
  induction HP as [|p q ps qs HPQ HP (I1 & I2)]; [cbn; auto|]. cbn [filter].
  assert (HE : reported p = reported q) by (unfold reported; unfold same_physics in HPQ; destruct HPQ as (?&?&?&?&?&?&?&?&?&?&?&?&?&?&H14&H15&?); congruence).
  rewrite HE. destruct (reported q); [|auto]. cbn [map length]. rewrite I1, I2. split; [reflexivity|].
  unfold same_physics in HPQ. destruct HPQ as (H1&H2&H3&?&?&?&?&H8&?&?&?&?&?&?&?&H16&?).
  f_equal. unfold physical_columns, row9_tagged, row9. cbn [firstn skipn app]. rewrite H1, H2, H3, H8. reflexivity.
Qed.
Print Assumptions C113_tagged_and_plain_list.


(** ** The Fortran list interface and the Python one (exact arithmetic) *)
(** A Fortran row and a Python row that show one particle: the Python one has
    the position too and shows a stopped particle with energy 0. *)
Definition same_particle_rows (f p : list R) : Prop :=
  exists Z m E E' x y z ux uy uz, f = [Z; m; E; ux; uy; uz] /\ p = [Z; m; E'; x; y; z; ux; uy; uz] /\ (E' = E \/ E' = 0%R).
(** accepted by ParticleInput::default_incident, and of length 1 already *)
Definition unit_ion (i : PyIon R) : Prop :=
  (py_ux i * py_ux i + py_uy i * py_uy i + py_uz i * py_uz i = 1 /\ Rabs (py_ux i) < 1 - neps /\ 0 < py_energy i)%R.
Lemma default_incident_unit (i : PyIon R) x : unit_ion i ->
  exists p, default_incident (py_m1 i) (py_Z1 i) (py_energy i) (py_Ec1 i) (py_Es1 i) x (py_ux i) (py_uy i) (py_uz i) = Ok p /\
            same_physics (fortran_ion x i) p.
Proof.
  intros (Hn & Hx & HE). unfold default_incident.
  assert (D : forall a : R, ndiv a (nsqrt (nadd (nadd (nmul (py_ux i) (py_ux i)) (nmul (py_uy i) (py_uy i))) (nmul (py_uz i) (py_uz i)))) = a).
  { intro a. toR. rewrite Hn, sqrt_1. field. }
  cbv zeta. rewrite !D. rewrite (proj2 (nlt_true _ _)) by (toR; exact Hx).
  cbn [rassert bind]. rewrite (proj2 (nlt_true _ _)) by (rewrite nZ_R; exact HE). cbn [rassert bind].
  eexists. split; [reflexivity|]. unfold fortran_ion, literal_incident, same_physics.
  cbn [p_m p_Z p_E p_Ec p_Es p_Ed p_pos p_dir p_pos_old p_dir_old p_pos_origin p_energy_origin p_asymptotic_deflection p_stopped p_left p_incident p_first_step p_number_collision_events p_backreflected p_interaction_index].
  repeat (split; [first [reflexivity|discriminate]|]). reflexivity.
Qed.
Theorem C113_fortran_and_python_list :
  forall (build : Build R) fuel ions (Z2 m2 Ec2 Es2 Eb2 n2 : list R) rng n,
    Forall unit_ion ions ->
    length m2 = length Z2 -> length Ec2 = length Z2 -> length Es2 = length Z2 -> length Eb2 = length Z2 -> length n2 = length Z2 ->
    agree_run (fun out out' => fst out = length (fst out') /\ Forall2 same_particle_rows (snd out) (fst out'))
      (compound_bca_list_fortran build fuel true ions Z2 m2 Ec2 Es2 Eb2 n2 rng n)
      (compound_bca_list_py build fuel ions Z2 m2 Ec2 Es2 n2 Eb2 rng n).
Proof.
  intros build fuel ions Z2 m2 Ec2 Es2 Eb2 n2 rng n HU L1 L2 L3 L4 L5.
  unfold compound_bca_list_py. rewrite L1, L2, L3, L4, L5, Nat.eqb_refl. cbn [rassert].
  revert rng n. match goal with |- forall rng n, agree_run ?R (?x rng n) (?y rng n) => change (magree R x y) end.
  cbv zeta. do 5 (match goal with |- magree ?R ?b (mbind (mlift (Ok ?p)) ?f) => change (magree R b (f p)) end; cbv beta).
  unfold compound_bca_list_fortran. cbv zeta.
  eapply magree_bind; [apply magree_refl|]. intros mat ? <-.
  eapply magree_bind with (R := Forall2 same_physics).
  - induction HU as [|i is Hi HU IH]; [apply magree_ret; constructor|]. cbn [map run_all py_loop].
    destruct (default_incident_unit i (start_x (nsum n2)) Hi) as (p & Hp & Hs). rewrite Hp.
    match goal with |- magree ?R ?b (mbind (mlift (Ok ?p)) ?f) => change (magree R b (f p)) end. cbv beta.
    eapply magree_bind; [apply (sp_single mat (default_options true) (default_options true)); [unfold same_physics_options; tauto|exact Hs]|].
    intros out out' HO. eapply magree_bind; [exact IH|]. intros outs outs' HOs. apply magree_ret. apply Forall2_app; assumption.
  - intros ps qs HP. rewrite py_collect_spec. cbn [app]. apply magree_ret. cbn [fst snd]. rewrite !map_length.
    change (@emitted R) with (@reported R).
    induction HP as [|p q ps qs HPQ HP (I1 & I2)]; [cbn; auto|]. cbn [filter].
    assert (HE : reported p = reported q) by (unfold reported; unfold same_physics in HPQ; destruct HPQ as (?&?&?&?&?&?&?&?&?&?&?&?&?&?&H14&H15&?); congruence).
    rewrite HE. destruct (reported q); [|auto]. cbn [map length]. split; [congruence|]. constructor; [|exact I2].
    unfold same_physics in HPQ. destruct HPQ as (H1&H2&H3&?&?&?&?&H8&?&?&?&?&?&?&?&H16&?).
    unfold same_particle_rows, row6, row9_py. rewrite H1, H2, H3, H8. do 10 eexists. split; [reflexivity|]. split; [reflexivity|].
    destruct (p_stopped q); [right; apply nZ_R|left; reflexivity].
Qed.
Print Assumptions C113_fortran_and_python_list.

(** ** simple_bca_list_py and simple_bca_list_c: energies and directions, or velocities *)
(** E in eV and the direction of a velocity in m/s, m1 in atomic mass units *)
Definition moves (m1 : R) (i : R * Vector R) (v : Vector R) : Prop :=
  let s := sqrt (vx v * vx v + vy v * vy v + vz v * vz v) in
  (0 < fst i /\ fst i * cEV = 1 / 2 * (m1 * cAMU) * (s * s) /\ s <> 0 /\
   vx v = s * vx (snd i) /\ vy v = s * vy (snd i) /\ vz v = s * vz (snd i))%R.
Lemma moves_ion m1 i v Z1 Ec1 Es1 x : moves m1 i v ->
  velocity_ion m1 Z1 Ec1 Es1 x (nZ 1) 0%Z (mkV (nZ 0) (nZ 0) (nZ 0)) v =
  literal_incident (nmul m1 cAMU) Z1 (nmul (fst i) cEV) (nmul Ec1 cEV) (nmul Es1 cEV) x (nZ 0) (nZ 0)
    (vx (snd i)) (vy (snd i)) (vz (snd i)) (nZ 1) 0%Z (mkV (nZ 0) (nZ 0) (nZ 0)).
Proof.
  unfold moves. cbv zeta. intros (_ & HE & Hs & Hx & Hy & Hz). unfold velocity_ion. cbv zeta. toR.
  set (s := sqrt _) in *.
  assert (E0 : (nlit 5 (-1) * m1 * cAMU * s * s = fst i * cEV)%R).
  { rewrite HE. replace (nlit 5 (-1)) with (1/2)%R; [ring|]. rewrite nlit_neg. change (10 ^ Zpos 1)%Z with 10%Z. lra. }
  rewrite E0. assert (D : forall a b : R, a = (s * b)%R -> (a / s)%R = b) by (intros a b ->; field; exact Hs).
  rewrite (D _ _ Hx), (D _ _ Hy), (D _ _ Hz). reflexivity.
Qed.
Theorem C113_simple_python_and_c_list :
  forall (build : Build R) fuel ions velocities (Z1 m1 Ec1 Es1 Z2 m2 n2 Ec2 Es2 Eb2 : R) rng n,
    Forall2 (moves m1) ions velocities -> (0 < Ec1)%R -> (0 < Ec2)%R ->
    simple_bca_list_py build fuel ions Z1 m1 Ec1 Es1 Z2 m2 Ec2 Es2 n2 Eb2 rng n =
    simple_bca_list_c build fuel velocities Z1 m1 Ec1 Es1 Z2 m2 n2 Ec2 Es2 Eb2 rng n.
Proof.
  intros build fuel ions vs Z1 m1 Ec1 Es1 Z2 m2 n2 Ec2 Es2 Eb2 rng n HM H1 H2.
  unfold simple_bca_list_c, simple_bca_list_py.
  destruct (one_species_target_ok Z2 m2 n2 Ec2 Es2 Eb2) as (mat & HZ & HE & Ht). unfold one_species_target in Ht.
  unfold mlift, mbind at 1. rewrite !Ht. cbv beta iota. unfold mbind at 1.
  rewrite (run_all_longer_Ed build mat (repeat _ (length vs)));
    [|rewrite HZ; reflexivity|rewrite HE; destruct vs; [intro N; exfalso; apply N; reflexivity|reflexivity]].
  assert (Ht1 : target_0d SBM_AVERAGE LU_ANGSTROM [Z2] [m2] [n2] [Ec2] [Es2] [Eb2] [nZ 0] [0] = Ok mat).
  { etransitivity; [exact (Ht 1)|]. f_equal. unfold with_Ed. cbn [repeat]. rewrite <- HE. destruct mat; reflexivity. }
  revert n. induction HM as [|i v is vs Hm HM IH]; intro n; [reflexivity|]. cbn [simple_bca_list_loop map run_all].
  unfold simple_bca at 1. rewrite (proj2 (nlt_true _ _)) by (rewrite nZ_R; apply Hm).
  rewrite (proj2 (nlt_true _ _)) by (rewrite nZ_R; exact H1). rewrite (proj2 (nlt_true _ _)) by (rewrite nZ_R; exact H2).
  rewrite Ht1. cbn [rassert]. unfold mlift. unfold mbind. cbv beta iota.
  rewrite <- (moves_ion _ _ _ _ _ _ _ Hm).
  destruct (single_ion_bca build mat (default_options true) fuel _ rng n) as [[out k]| |]; try reflexivity.
  unfold mret at 1. cbv beta iota. rewrite IH.
  destruct (run_all build mat (default_options true) fuel _ rng k) as [[outs k']| |]; try reflexivity.
  unfold mret. rewrite filter_app, map_app. reflexivity.
Qed.
Print Assumptions C113_simple_python_and_c_list.

(** ** The hypotheses are met *)
Example C113_addition_to_zero : forall lm s m e, @nadd spec_float (NumSF lm) (@nZ spec_float (NumSF lm) 0) (S754_finite s m e) = S754_finite s m e.
Proof. intros. reflexivity. Qed.
Example C113_unit_ion_exists : unit_ion (mkPyIon 100 (3/5) (4/5) 0 2 3 4 5)%R.
Proof.
  unfold unit_ion. cbn [py_ux py_uy py_uz py_energy].
  repeat split; [lra| |lra]. rewrite Rabs_pos_eq by lra.
  assert (neps < 1/10)%R; [|lra]. change (/ IZR (2 ^ 52) < 1 / 10)%R. apply Rmult_lt_reg_r with (IZR (2 ^ 52)); [apply IZR_lt; reflexivity|]. rewrite Rinv_l by (apply not_0_IZR; discriminate). change (2 ^ 52)%Z with 4503599627370496%Z. lra.
Qed.
Example C113_moves_exists (m1 s : R) : (0 < m1)%R -> (0 < s)%R ->
  moves m1 ((1 / 2 * (m1 * cAMU) * (s * s) / cEV)%R, mkV (3/5)%R (4/5)%R 0%R) (mkV (s * (3/5))%R (s * (4/5))%R (s * 0)%R).
Proof.
  intros Hm Hs. unfold moves. cbn [fst snd vx vy vz]. cbv zeta.
  replace (s * (3/5) * (s * (3/5)) + s * (4/5) * (s * (4/5)) + s * 0 * (s * 0))%R with (s * s)%R by field.
  rewrite sqrt_square by lra. pose proof cEV_pos as He. assert (Ha : (0 < (cAMU : R))%R) by (unfold cAMU; rewrite nlit_neg; apply Rdiv_lt_0_compat; apply IZR_lt; reflexivity).
  assert (Hp : (0 < m1 * cAMU)%R) by (apply Rmult_lt_0_compat; assumption).
  assert (Hq : (0 < s * s)%R) by (apply Rmult_lt_0_compat; assumption).
  assert (Hr : (0 < m1 * cAMU * (s * s))%R) by (apply Rmult_lt_0_compat; assumption).
  split; [apply Rdiv_lt_0_compat; lra|]. split; [field; lra|]. split; [lra|]. repeat split.
Qed.
