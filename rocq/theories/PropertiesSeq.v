(** * PropertiesSeq.v - C84, C86, C87: list interfaces ion by ion, accepted particles, units *)
From Coq Require Import ZArith List Bool Lia Reals Lra Floats.SpecFloat.
From Verif Require Import Num NumSF NumR ModelTypes ModelConsts ModelParticle ModelGeometry ModelMaterial ModelBca ModelInput ModelLib.
From Verif Require Import Spec SpecLib SpecTwo SpecUnits ProofsBase ProofsLib ProofsSeq Toy.
Import ListNotations.
Open Scope nat_scope.

(** ** C84: ions of a list are simulated one after the other, each with the next random numbers *)
Section C84.
  Context {F : Type} {NF : Num F}.
Theorem C84_compound_bca_list_c :
    forall build fuel (v1 v2 : list (Vector F)) Z1 m1 Ec1 Es1 Z2 m2 n2 Ec2 Es2 Eb2 rng n,
      compound_bca_list_c build fuel (v1 ++ v2) Z1 m1 Ec1 Es1 Z2 m2 n2 Ec2 Es2 Eb2 rng n =
      one_after_the_other (compound_bca_list_c build fuel v1 Z1 m1 Ec1 Es1 Z2 m2 n2 Ec2 Es2 Eb2)
                          (compound_bca_list_c build fuel v2 Z1 m1 Ec1 Es1 Z2 m2 n2 Ec2 Es2 Eb2) (@app _) rng n.
  Proof.
    intros. revert rng n. unfold compound_bca_list_c. apply oao_lift. intros mat _. rewrite map_app.
    eapply sr_trans; [apply sr_bind; [apply run_all_app|intros; apply sr_refl]|].
    apply oao_map. intros. rewrite filter_app, map_app. reflexivity.
  Qed.
Theorem C84_compound_bca_list_fortran :
    forall build fuel recoils (v1 v2 : list (PyIon F)) Z2 m2 Ec2 Es2 Eb2 n2 rng n,
      compound_bca_list_fortran build fuel recoils (v1 ++ v2) Z2 m2 Ec2 Es2 Eb2 n2 rng n =
      one_after_the_other (compound_bca_list_fortran build fuel recoils v1 Z2 m2 Ec2 Es2 Eb2 n2)
                          (compound_bca_list_fortran build fuel recoils v2 Z2 m2 Ec2 Es2 Eb2 n2)
                          (fun a b => (fst a + fst b, snd a ++ snd b)) rng n.
  Proof.
    intros. revert rng n. unfold compound_bca_list_fortran. apply oao_lift. intros mat _. rewrite map_app.
    eapply sr_trans; [apply sr_bind; [apply run_all_app|intros; apply sr_refl]|].
    apply oao_map. intros. cbn [fst snd]. rewrite filter_app, map_app, app_length. reflexivity.
  Qed.
  (** the count the Fortran interface reports is the number of rows *)
Theorem C84_fortran_count :
    forall build fuel recoils (ions : list (PyIon F)) Z2 m2 Ec2 Es2 Eb2 n2 rng n count rows n',
      compound_bca_list_fortran build fuel recoils ions Z2 m2 Ec2 Es2 Eb2 n2 rng n = Ok ((count, rows), n') ->
      count = length rows.
  Proof.
    intros until n'. intros H. unfold compound_bca_list_fortran in H. apply mbind_ok in H. destruct H as (mat & k & _ & H).
    apply mbind_ok in H. destruct H as (ps & k' & _ & H). apply mret_ok in H. destruct H as (H & _). injection H as E1 E2. subst. reflexivity.
  Qed.
Theorem C84_simple_bca_list_py :
    forall build fuel (v1 v2 : list (F * Vector F)) Z1 m1 Ec1 Es1 Z2 m2 Ec2 Es2 n2 Eb2 rng n,
      simple_bca_list_py build fuel (v1 ++ v2) Z1 m1 Ec1 Es1 Z2 m2 Ec2 Es2 n2 Eb2 rng n =
      one_after_the_other (simple_bca_list_py build fuel v1 Z1 m1 Ec1 Es1 Z2 m2 Ec2 Es2 n2 Eb2)
                          (simple_bca_list_py build fuel v2 Z1 m1 Ec1 Es1 Z2 m2 Ec2 Es2 n2 Eb2) (@app _) rng n.
  Proof. intros. revert rng n. apply simple_loop_app. Qed.
  (** one ion of simple_bca_list_py is simple_bca *)
Theorem C84_simple_bca_list_of_one :
    forall build fuel E ux uy uz (Z1 m1 Ec1 Es1 Z2 m2 Ec2 Es2 n2 Eb2 : F) rng n,
      simple_bca_list_py build fuel [(E, mkV ux uy uz)] Z1 m1 Ec1 Es1 Z2 m2 Ec2 Es2 n2 Eb2 rng n =
      simple_bca build fuel (start_x n2) (nZ 0) (nZ 0) ux uy uz E Z1 m1 Ec1 Es1 Z2 m2 Ec2 Es2 n2 Eb2 rng n.
  Proof.
    intros. unfold simple_bca_list_py. cbn [simple_bca_list_loop fst snd vx vy vz]. unfold mbind, mret.
    destruct (simple_bca _ _ _ _ _ _ _ _ _ _ _ _ _ _ _ _ _ _ _ rng n) as [[a k]|k|]; auto. rewrite app_nil_r. reflexivity.
  Qed.
Theorem C84_compound_bca_list_py :
    forall build fuel (v1 v2 : list (PyIon F)) Z2 m2 Ec2 Es2 n2 Eb2 rng n,
      compound_bca_list_py build fuel (v1 ++ v2) Z2 m2 Ec2 Es2 n2 Eb2 rng n =
      one_after_the_other (compound_bca_list_py build fuel v1 Z2 m2 Ec2 Es2 n2 Eb2)
                          (compound_bca_list_py build fuel v2 Z2 m2 Ec2 Es2 n2 Eb2)
                          (fun a b => (fst a ++ fst b, snd a ++ snd b)) rng n.
  Proof.
    intros. revert rng n. unfold compound_bca_list_py. do 6 (apply oao_lift; intros ? _).
    eapply sr_trans; [apply sr_bind; [apply py_loop_app|intros ps; rewrite py_collect_spec; cbn [app]; apply sr_refl]|].
    eapply sr_trans; [eapply oao_map with (j' := fun a b => (fst a ++ fst b, snd a ++ snd b))|].
    - intros ps qs. cbn [fst snd]. rewrite filter_app, !map_app. reflexivity.
    - apply oao_congr; (apply sr_bind; [apply sr_refl|intros ps; rewrite py_collect_spec; apply sr_refl]).
  Qed.
Theorem C84_compound_bca_list_1D_py :
    forall build fuel (v1 v2 : list (PyIon F)) Z2 m2 Ec2 Es2 Eb2 n2 dx rng n,
      compound_bca_list_1D_py build fuel (v1 ++ v2) Z2 m2 Ec2 Es2 Eb2 n2 dx rng n =
      one_after_the_other (compound_bca_list_1D_py build fuel v1 Z2 m2 Ec2 Es2 Eb2 n2 dx)
                          (compound_bca_list_1D_py build fuel v2 Z2 m2 Ec2 Es2 Eb2 n2 dx)
                          (fun a b => (fst (fst a) ++ fst (fst b), snd (fst a) ++ snd (fst b), snd a ++ snd b)) rng n.
  Proof.
    intros. revert rng n. unfold compound_bca_list_1D_py. do 9 (apply oao_lift; intros ? _).
    eapply sr_trans; [apply sr_bind; [apply py_loop_app|intros ps; rewrite py_collect_spec; cbn [app]; apply sr_refl]|].
    eapply sr_trans; [eapply oao_map with (j' := fun a b => (fst (fst a) ++ fst (fst b), snd (fst a) ++ snd (fst b), snd a ++ snd b))|].
    - intros ps qs. cbn [fst snd]. rewrite filter_app, !map_app. reflexivity.
    - apply oao_congr; (apply sr_bind; [apply sr_refl|intros ps; rewrite py_collect_spec; apply sr_refl]).
  Qed.
  (** The tagged interface; all per-ion arrays split at the same place. *)
  Definition tagged_with (inp : InputTagged F) velocities positions weights tags : InputTagged F := {|
    it_positions := positions; it_velocities := velocities; it_Z1 := it_Z1 inp; it_m1 := it_m1 inp; it_Ec1 := it_Ec1 inp;
    it_Es1 := it_Es1 inp; it_Z2 := it_Z2 inp; it_m2 := it_m2 inp; it_n2 := it_n2 inp; it_Ec2 := it_Ec2 inp; it_Es2 := it_Es2 inp;
    it_Eb2 := it_Eb2 inp; it_tags := tags; it_weights := weights |}.
Theorem C84_compound_tagged_bca_list_c :
    forall build fuel (inp : InputTagged F) v1 v2 p1 p2 w1 w2 t1 t2 rng n,
      length p1 = length v1 -> length w1 = length v1 -> length t1 = length v1 ->
      compound_tagged_bca_list_c build fuel (tagged_with inp (v1 ++ v2) (p1 ++ p2) (w1 ++ w2) (t1 ++ t2)) rng n =
      one_after_the_other (compound_tagged_bca_list_c build fuel (tagged_with inp v1 p1 w1 t1))
                          (compound_tagged_bca_list_c build fuel (tagged_with inp v2 p2 w2 t2))
        (fun a b => {| ot_len := ot_len a + ot_len b; ot_particles := ot_particles a ++ ot_particles b;
                       ot_weights := ot_weights a ++ ot_weights b; ot_tags := ot_tags a ++ ot_tags b;
                       ot_incident := ot_incident a ++ ot_incident b |}) rng n.
  Proof.
    intros build fuel inp v1 v2 p1 p2 w1 w2 t1 t2 rng n L1 L2 L3. revert rng n. unfold compound_tagged_bca_list_c.
    cbn [tagged_with it_Z2 it_m2 it_n2 it_Ec2 it_Es2 it_Eb2 it_velocities]. apply oao_lift. intros mat _.
    set (opts := default_options true). set (x := start_x (nsum (it_n2 inp))).
    set (whole := tagged_with inp (v1 ++ v2) (p1 ++ p2) (w1 ++ w2) (t1 ++ t2)).
    set (first := tagged_with inp v1 p1 w1 t1). set (second := tagged_with inp v2 p2 w2 t2).
    assert (FS : forall A (l l' : list A), length l = length v1 -> l = firstn (length v1) (l ++ l')).
    { intros A l l' <-. rewrite firstn_app, firstn_all, Nat.sub_diag, firstn_O, app_nil_r. reflexivity. }
    assert (SK : forall A (l l' : list A), length l = length v1 -> l' = skipn (length v1) (l ++ l')).
    { intros A l l' <-. rewrite skipn_app, skipn_all, Nat.sub_diag. reflexivity. }
    eapply sr_trans.
    { apply sr_bind.
      - eapply sr_trans; [apply tagged_loop_app|]. apply oao_congr.
        + apply (tagged_loop_prefix build mat opts fuel whole first x (length v1)); try reflexivity; cbn; auto; lia.
        + eapply (tagged_loop_shift build mat opts fuel whole second x (length v1) v2 0); try reflexivity; cbn; auto.
      - intros ps. rewrite tagged_collect_spec. cbn [app]. apply sr_refl. }
    eapply sr_trans; [eapply oao_map with (j' := fun a b => {| ot_len := ot_len a + ot_len b; ot_particles := ot_particles a ++ ot_particles b;
                       ot_weights := ot_weights a ++ ot_weights b; ot_tags := ot_tags a ++ ot_tags b;
                       ot_incident := ot_incident a ++ ot_incident b |})|].
    - intros ps qs. cbn [ot_len ot_particles ot_weights ot_tags ot_incident]. rewrite filter_app, !map_app, app_length. reflexivity.
    - apply oao_congr; (apply sr_bind; [apply sr_refl|intros ps; rewrite tagged_collect_spec; apply sr_refl]).
  Qed.
End C84.
Print Assumptions C84_compound_bca_list_c.
Print Assumptions C84_compound_bca_list_fortran.
Print Assumptions C84_fortran_count.
Print Assumptions C84_simple_bca_list_py.
Print Assumptions C84_simple_bca_list_of_one.
Print Assumptions C84_compound_bca_list_py.
Print Assumptions C84_compound_bca_list_1D_py.
Print Assumptions C84_compound_tagged_bca_list_c.

(** ** C86: what the constructors of incident particles accept *)
Section C86.
  Open Scope R_scope.
  Lemma sq_pos x : x <> 0 -> 0 < x ^ 2.
  Proof. intros H. replace (x ^ 2) with (Rsqr x) by (unfold Rsqr; ring). apply Rlt_0_sqr. exact H. Qed.
  Lemma length3_pos x y z : (x, y, z) <> (0, 0, 0) -> 0 < length3 x y z.
  Proof.
    intros H. unfold length3. apply sqrt_lt_R0.
    destruct (Req_dec x 0) as [->|Hx]; [|assert (0 < x ^ 2) by (apply sq_pos; exact Hx); pose proof (pow2_ge_0 y); pose proof (pow2_ge_0 z); lra].
    destruct (Req_dec y 0) as [->|Hy]; [|assert (0 < y ^ 2) by (apply sq_pos; exact Hy); pose proof (pow2_ge_0 0); pose proof (pow2_ge_0 z); lra].
    destruct (Req_dec z 0) as [->|Hz]; [congruence|]. assert (0 < z ^ 2) by (apply sq_pos; exact Hz). pose proof (pow2_ge_0 0). lra.
  Qed.
  Lemma mag_spec x y z : nsqrt (x *! x +! y *! y +! z *! z)%num = length3 x y z.
  Proof. unfold length3. toR. f_equal. ring. Qed.
  Lemma assert_spec x L : 0 < L -> nlt (nabs (x /! L)%num) (nZ 1 -! neps)%num = true <-> Rabs x < (1 - / 2 ^ 52) * L.
  Proof.
    intros HL. rewrite nlt_true. rewrite nZ_R. change (nabs (x /! L)%num) with (Rabs (x / L)).
    change (1 -! neps)%num with (1 - / IZR (2 ^ 52)). rewrite (pow_IZR 2 52). change (Z.of_nat 52) with 52%Z.
    unfold Rdiv. rewrite Rabs_mult, Rabs_inv, (Rabs_right L) by lra.
    split; intros H.
    - apply (Rmult_lt_compat_r L) in H; [|lra]. rewrite Rmult_assoc, Rinv_l in H by lra. lra.
    - apply Rmult_lt_reg_r with L; [lra|]. rewrite Rmult_assoc, Rinv_l by lra. lra.
  Qed.
  Lemma unit_spec x y z : 0 < length3 x y z -> unit_along (mkV (x / length3 x y z) (y / length3 x y z) (z / length3 x y z)) x y z.
  Proof.
    intros H. unfold unit_along. cbn [vx vy vz]. set (L := length3 x y z) in *.
    assert (HL : L ^ 2 = x ^ 2 + y ^ 2 + z ^ 2).
    { unfold L, length3. apply pow2_sqrt. pose proof (pow2_ge_0 x). pose proof (pow2_ge_0 y). pose proof (pow2_ge_0 z). lra. }
    split; [|repeat split; field; lra].
    unfold length3. replace ((x / L) ^ 2 + (y / L) ^ 2 + (z / L) ^ 2) with ((x ^ 2 + y ^ 2 + z ^ 2) / L ^ 2) by (field; lra).
    rewrite <- HL. replace (L ^ 2 / L ^ 2) with 1 by (field; lra). apply sqrt_1.
  Qed.
  (** An input particle with a non-zero direction is accepted exactly if its
      energy is positive and it does not move along the surface normal; the
      particle built from it is unused, has the given data and a normalised direction. *)
Theorem C86_from_input_partial :
    forall (i : ParticleInput R) (o : Options R), (pi_ux i, pi_uy i, pi_uz i) <> (0, 0, 0) ->
      (acceptable (pi_E i) (pi_ux i) (pi_uy i) (pi_uz i) ->
         exists p, from_input i o = Ok p /\
           p_m p = pi_m i /\ p_Z p = pi_Z i /\ p_E p = pi_E i /\ p_Ec p = pi_Ec i /\ p_Es p = pi_Es i /\
           p_interaction_index p = pi_interaction_index i /\
           fresh p (pi_x i) (pi_y i) (pi_z i) /\ unit_along (p_dir p) (pi_ux i) (pi_uy i) (pi_uz i)) /\
      (~ acceptable (pi_E i) (pi_ux i) (pi_uy i) (pi_uz i) -> from_input i o = Panic AssertFail).
  Proof.
    intros i o Hu. apply length3_pos in Hu. unfold from_input, acceptable. rewrite mag_spec. cbv zeta.
    pose proof (assert_spec (pi_ux i) _ Hu) as HA.
    destruct (nlt (nabs (pi_ux i /! length3 (pi_ux i) (pi_uy i) (pi_uz i))%num) (nZ 1 -! neps)%num) eqn:E1; cbn [rassert bind].
    - destruct (nlt (nZ 0) (pi_E i)) eqn:E2; cbn [rassert bind].
      + apply nlt_true in E2. rewrite nZ_R in E2. split; [intros _|intros H; exfalso; apply H; split; [exact E2|apply HA; reflexivity]].
        eexists. split; [reflexivity|]. cbn [p_m p_Z p_E p_Ec p_Es p_dir p_interaction_index]. repeat (split; [reflexivity|]).
        split; [|apply unit_spec; exact Hu].
        unfold fresh. cbn [p_pos p_pos_old p_pos_origin p_dir_old p_dir p_asymptotic_deflection p_stopped p_left p_incident p_first_step
          p_backreflected p_number_collision_events]. rewrite ?nZ_R. tauto.
      + apply nlt_false in E2. rewrite nZ_R in E2. split; [intros (H & _); lra|reflexivity].
    - split; [intros (_ & H); apply HA in H; discriminate|reflexivity].
  Qed.
  (** the constructor behind the Python and yield functions: amu, eV *)
Theorem C86_default_incident_partial :
    forall m Z E Ec Es x ux uy uz, (ux, uy, uz) <> (0, 0, 0) ->
      (acceptable E ux uy uz ->
         exists p, default_incident m Z E Ec Es x ux uy uz = Ok p /\
           p_m p = m * cAMU /\ p_Z p = Z /\ p_E p = E * cEV /\ p_Ec p = Ec * cEV /\ p_Es p = Es * cEV /\
           fresh p x 0 0 /\ unit_along (p_dir p) ux uy uz) /\
      (~ acceptable E ux uy uz -> default_incident m Z E Ec Es x ux uy uz = Panic AssertFail).
  Proof.
    intros m Z E Ec Es x ux uy uz Hu. apply length3_pos in Hu. unfold default_incident, acceptable. rewrite mag_spec. cbv zeta.
    pose proof (assert_spec ux _ Hu) as HA.
    destruct (nlt (nabs (ux /! length3 ux uy uz)%num) (nZ 1 -! neps)%num) eqn:E1; cbn [rassert bind].
    - destruct (nlt (nZ 0) E) eqn:E2; cbn [rassert bind].
      + apply nlt_true in E2. rewrite nZ_R in E2. split; [intros _|intros H; exfalso; apply H; split; [exact E2|apply HA; reflexivity]].
        eexists. split; [reflexivity|]. cbn [p_m p_Z p_E p_Ec p_Es p_dir]. repeat (split; [reflexivity|]).
        split; [|apply unit_spec; exact Hu].
        unfold fresh. cbn [p_pos p_pos_old p_pos_origin p_dir_old p_dir p_asymptotic_deflection p_stopped p_left p_incident p_first_step
          p_backreflected p_number_collision_events]. rewrite ?nZ_R. tauto.
      + apply nlt_false in E2. rewrite nZ_R in E2. split; [intros (H & _); lra|reflexivity].
    - split; [intros (_ & H); apply HA in H; discriminate|reflexivity].
  Qed.
End C86.
Print Assumptions C86_from_input_partial.
Print Assumptions C86_default_incident_partial.

Lemma below_one v : SFltb (SFabs v) (SFsub prec emax (sf_lit 1 0) (sf_lit 22204460492503131 (-32))) = true -> SFltb (SFabs v) (sf_lit 1 0) = true.
Proof.
  assert (E1 : SFsub prec emax (sf_lit 1 0) (sf_lit 22204460492503131 (-32)) = S754_finite false 9007199254740990 (-53)) by (vm_compute; reflexivity).
  assert (E2 : sf_lit 1 0 = S754_finite false 4503599627370496 (-52)) by (vm_compute; reflexivity).
  rewrite E1, E2. clear E1 E2. destruct v as [s|s| |s m e]; cbn [SFabs].
  - intros _. reflexivity.
  - discriminate.
  - discriminate.
  - unfold SFltb, SFcompare. destruct (Z.compare_spec e (-53)) as [He|Hl|Hg]; intros Hc.
    + rewrite He. reflexivity.
    + rewrite (proj2 (Z.compare_lt_iff e (-52))) by lia. reflexivity.
    + discriminate.
Qed.
(** In double precision, with any library: the energy of an accepted particle is
    positive (possibly infinite), never NaN, and its first direction component is a number below one. *)
Theorem C86_double_precision_partial :
  forall (lm : Libm) i o p, from_input (NF := NumSF lm) i o = Ok p ->
    (p_E p = S754_infinity false \/ exists m e, p_E p = S754_finite false m e) /\
    SFltb (SFabs (vx (p_dir p))) (sf_lit 1 0) = true.
Proof.
  intros lm i o p H. unfold from_input in H. apply bind_ok in H. destruct H as (u & Hu & H). apply rassert_ok in Hu.
  apply bind_ok in H. destruct H as (u' & HE & H). apply rassert_ok in HE. injection H as <-. cbn [p_E p_dir vx]. split.
  - change (SFltb (sf_lit 0 0) (pi_E i) = true) in HE.
    destruct (pi_E i) as [s|s| |s m e]; try discriminate HE; destruct s; try discriminate HE; eauto.
  - exact (below_one _ Hu).
Qed.
Print Assumptions C86_double_precision_partial.
(** ... but an accepted particle need not have a direction at all: with components
    whose squares overflow it is the zero vector, and with an infinite one NaN. *)
Definition with_direction (ux uy : spec_float) : ParticleInput spec_float := {|
  pi_m := pi_m toy_input; pi_Z := pi_Z toy_input; pi_E := pi_E toy_input; pi_Ec := pi_Ec toy_input; pi_Es := pi_Es toy_input;
  pi_x := pi_x toy_input; pi_y := pi_y toy_input; pi_z := pi_z toy_input; pi_ux := ux; pi_uy := uy; pi_uz := nZ 0;
  pi_interaction_index := 0; pi_weight := nZ 1; pi_tag := 0 |}.
Theorem C86_direction_refuted :
  forall lm o,
    (exists p, from_input (NF := NumSF lm) (with_direction (sf_lit 1 200) (sf_lit 1 200)) o = Ok p /\
               p_dir p = mkV (S754_zero false) (S754_zero false) (S754_zero false)) /\
    (exists p, from_input (NF := NumSF lm) (with_direction (sf_lit 1 0) (S754_infinity false)) o = Ok p /\
               vy (p_dir p) = S754_nan).
Proof. intros lm o. split; eexists; (split; [vm_compute; reflexivity|vm_compute; reflexivity]). Qed.
Print Assumptions C86_direction_refuted.
Example C86_applies : acceptable 5 3 4 0 /\ ~ acceptable 5 1 0 0 /\ ~ acceptable 0 3 4 0.
Proof.
  assert (H : forall a, (0 <= a)%R -> length3 a 0 0 = a).
  { intros a Ha. unfold length3. replace (a ^ 2 + 0 ^ 2 + 0 ^ 2)%R with (a ^ 2)%R by ring. rewrite <- Rsqr_pow2. apply sqrt_Rsqr. exact Ha. }
  assert (H5 : (length3 3 4 0 = 5)%R) by (unfold length3; replace (3 ^ 2 + 4 ^ 2 + 0 ^ 2)%R with (5 * 5)%R by ring; apply sqrt_square; lra).
  assert (HP : (0 < / 2 ^ 52 < / 8)%R).
  { split; [apply Rinv_0_lt_compat, pow_lt; lra|]. apply Rinv_lt_contravar; [apply Rmult_lt_0_compat; [lra|apply pow_lt; lra]|].
    replace 8%R with (2 ^ 3)%R by ring. apply Rlt_pow; [lra|lia]. }
  unfold acceptable. rewrite H5, (H 1%R) by lra. rewrite !Rabs_right by lra. repeat split; try lra; intros (? & ?); lra.
Qed.

(** ** C87: units *)
Section C87.
  Open Scope R_scope.
  Lemma ten n : IZR (10 ^ Z.of_nat n) = 10 ^ n. Proof. symmetry. apply (pow_IZR 10 n). Qed.
  Lemma length_unit_spec (u : LengthUnit R) :
    length_unit_value u = match metres u with Some a => Ok a | None => Panic UnwrapErr end.
  Proof.
    destruct u as [| | | | | |[v|]]; cbn [length_unit_value metres]; try reflexivity; try (rewrite nZ_R; reflexivity);
      unfold cMICRON, cCM, cMM, cANGSTROM, cNM; rewrite nlit_neg;
      [rewrite <- (ten 6)|rewrite <- (ten 2)|rewrite <- (ten 3)|rewrite <- (ten 10)|rewrite <- (ten 9)]; reflexivity.
  Qed.
  Lemma energy_unit_spec (u : EnergyUnit R) :
    energy_unit_value u = match joules u with Some a => Ok a | None => Panic UnwrapErr end.
  Proof.
    assert (E : (cEV : R) = 1602176634 / 10 ^ 28) by (unfold cEV, cQ; rewrite nlit_neg, <- (ten 28); reflexivity).
    destruct u as [| | | |[v|]]; cbn [energy_unit_value joules]; try reflexivity; try (rewrite nZ_R; reflexivity); rewrite ?E; f_equal;
      change (@nlit R NumR) with Rlit; toR; [replace (Rlit 1 3) with 1000 by (unfold Rlit; simpl; lra)|replace (Rlit 1 6) with 1000000 by (unfold Rlit; simpl; lra)]; ring.
  Qed.
  Lemma mass_unit_spec (u : MassUnit R) :
    mass_unit_value u = match kilograms u with Some a => Ok a | None => Panic UnwrapErr end.
  Proof.
    destruct u as [| |[v|]]; cbn [mass_unit_value kilograms]; try reflexivity; try (rewrite nZ_R; reflexivity).
    unfold cAMU. rewrite nlit_neg, <- (ten 38). reflexivity.
  Qed.
  (** A material's per-species data are the input's, in joules and kilograms;
      an unknown unit is refused. *)
Theorem C87_material_in_SI :
    forall (p : MaterialParameters R) (g : Geometry R),
      match joules (mp_energy_unit p), kilograms (mp_mass_unit p) with
      | Some J, Some kg => exists mat, material_new p (Ok g) = Ok mat /\ mat_geometry mat = g /\ mat_Z mat = mp_Z p /\
          mat_m mat = map (fun m => m * kg) (mp_m p) /\ mat_Eb mat = map (fun e => e * J) (mp_Eb p) /\
          mat_Es mat = map (fun e => e * J) (mp_Es p) /\ mat_Ec mat = map (fun e => e * J) (mp_Ec p) /\
          mat_Ed mat = map (fun e => e * J) (mp_Ed p) /\ mat_interaction_index mat = mp_interaction_index p /\
          mat_surface_binding_model mat = mp_surface_binding_model p /\ mat_bulk_binding_model mat = mp_bulk_binding_model p
      | _, _ => material_new p (Ok g) = Panic UnwrapErr
      end.
  Proof.
    intros p g. unfold material_new. rewrite energy_unit_spec, mass_unit_spec.
    destruct (joules (mp_energy_unit p)); [|reflexivity]. destruct (kilograms (mp_mass_unit p)); [|reflexivity].
    eexists. split; [reflexivity|]. cbn. tauto.
  Qed.

  Lemma densities_eq a b n n' : Forall2 (same_density a b) n n' -> convert_densities a n = convert_densities b n'.
  Proof.
    unfold convert_densities. induction 1 as [|x y l l' H _ IH]; [reflexivity|]. cbn [map]. rewrite IH. f_equal.
    unfold same_density in H. toR. replace (a * a * a) with (a ^ 3) by ring. replace (b * b * b) with (b ^ 3) by ring. exact H.
  Qed.
  Lemma all_densities_eq a b ns ns' : Forall2 (Forall2 (same_density a b)) ns ns' -> map (convert_densities a) ns = map (convert_densities b) ns'.
  Proof. induction 1 as [|x y l l' H _ IH]; [reflexivity|]. cbn [map]. rewrite IH. f_equal. apply densities_eq. exact H. Qed.
  Lemma points_eq a b l l' : Forall2 (same_point a b) l l' ->
    map (fun p : R * R => (fst p *! a, snd p *! a)%num) l = map (fun p : R * R => (fst p *! b, snd p *! b)%num) l'.
  Proof. induction 1 as [|x y l l' (H1 & H2) _ IH]; [reflexivity|]. cbn [map]. rewrite IH. f_equal. toR. rewrite H1, H2. reflexivity. Qed.
  (** the k-th point of either list, in metres *)
  Lemma idx_eq a b l l' k : Forall2 (same_point a b) l l' ->
    match idx l k, idx l' k with
    | Ok p, Ok q => fst p * a = fst q * b /\ snd p * a = snd q * b
    | Panic i, Panic j => i = j
    | _, _ => False
    end.
  Proof.
    intros H. revert k. unfold idx. induction H as [|x y l l' H _ IH]; intros [|k]; cbn [nth_error]; auto. exact (IH k).
  Qed.
  Lemma layers_eq a b rows rows' : forall top bottom,
    Forall2 (fun r r' => same_length a b (fst (fst r)) (fst (fst r')) /\ snd (fst r) = snd (fst r') /\ snd r = snd r') rows rows' ->
    mesh1d_layers a top bottom rows = mesh1d_layers b top bottom rows'.
  Proof.
    intros top bottom H. revert top bottom. induction H as [|[[t d] c] [[t' d'] c'] l l' (H1 & H2 & H3) _ IH]; intros top bottom; [reflexivity|].
    cbn [fst snd] in *. subst d' c'. cbn [mesh1d_layers]. unfold same_length in H1. change (t *! a)%num with (t * a). change (t' *! b)%num with (t' * b). rewrite H1.
    destruct (layer1d_new _ _ _ _ _); cbn [bind]; auto. rewrite IH. reflexivity.
  Qed.

  (** The same target described in units of [a] and of [b] metres: same result
      (same geometry, or same refusal), whatever the two units are called. *)
Theorem C87_same_target_in_other_units :
    forall u u' a b, metres u = Some a -> metres u' = Some b ->
    (forall n n' ck, Forall2 (same_density a b) n n' ->
       mesh0d_new (mkMesh0DInput u n ck) = mesh0d_new (mkMesh0DInput u' n' ck)) /\
    (forall t t' n n' cks, Forall2 (same_length a b) t t' -> Forall2 (Forall2 (same_density a b)) n n' ->
       mesh1d_new (mkMesh1DInput u t n cks) = mesh1d_new (mkMesh1DInput u' t' n' cks)) /\
    (forall poly tri p p' bd sim sim' n n' cks th th', Forall2 (same_point a b) p p' -> Forall2 (same_point a b) sim sim' ->
       Forall2 (Forall2 (same_density a b)) n n' -> same_length a b th th' ->
       mesh2d_new poly (mkMesh2DInput u tri p bd sim n cks th) = mesh2d_new poly (mkMesh2DInput u' tri p' bd sim' n' cks th')) /\
    (forall poly p p' sim sim' n n' ck, Forall2 (same_point a b) p p' -> Forall2 (same_point a b) sim sim' ->
       Forall2 (same_density a b) n n' ->
       homogeneous2d_new poly (mkHM2Input u p sim n ck) = homogeneous2d_new poly (mkHM2Input u' p' sim' n' ck)) /\
    (forall r r' n n' ck, same_length a b r r' -> Forall2 (same_density a b) n n' ->
       sphere_new (mkSphereInput u r n ck) = sphere_new (mkSphereInput u' r' n' ck)) /\
    (forall ball r r' n n' ck, same_length a b r r' -> Forall2 (same_density a b) n n' ->
       parryball_new ball (mkSphereInput u r n ck) = parryball_new ball (mkSphereInput u' r' n' ck)) /\
    (forall mesh v v' faces n n' ck, Forall2 (same_point3 a b) v v' -> Forall2 (same_density a b) n n' ->
       parrytrimesh_new mesh (mkParryTriMeshInput u n ck v faces) = parrytrimesh_new mesh (mkParryTriMeshInput u' n' ck v' faces)).
  Proof.
    intros u u' a b Hu Hu'. pose proof (length_unit_spec u) as EU. rewrite Hu in EU. pose proof (length_unit_spec u') as EU'. rewrite Hu' in EU'.
    repeat apply conj.
    - intros n n' ck Hn. unfold mesh0d_new. cbn [m0i_length_unit m0i_densities m0i_ck]. rewrite EU, EU'. cbn [bind]. cbv zeta.
      rewrite (densities_eq a b n n') by assumption. reflexivity.
    - intros t t' n n' cks Ht Hn. unfold mesh1d_new. cbn [m1i_length_unit m1i_densities m1i_layer_thicknesses m1i_cks]. rewrite EU, EU'. cbn [bind]. cbv zeta.
      rewrite (all_densities_eq a b n n') by assumption. generalize (map (convert_densities b) n'). intros d.
      rewrite (Forall2_len _ _ _ Ht).
      destruct (rassert _); cbn [bind]; auto. destruct (rassert _); cbn [bind]; auto.
      rewrite (layers_eq a b (zip (zip t d) cks) (zip (zip t' d) cks)); [reflexivity|].
      unfold zip. clear -Ht. revert d cks. induction Ht as [|x y t t' H Ht IH]; intros d cks; [constructor|].
      destruct d as [|d ds]; [constructor|]. destruct cks as [|c cks]; [constructor|]. cbn [combine]. constructor; [cbn; auto|]. apply IH.
    - intros poly tri p p' bd sim sim' n n' cks th th' Hp Hs Hn Hth. unfold mesh2d_new.
      cbn [m2i_length_unit m2i_densities m2i_triangles m2i_points m2i_boundary m2i_simulation_boundary_points m2i_cks m2i_energy_barrier_thickness].
      rewrite EU, EU'. cbn [bind]. cbv zeta. rewrite (all_densities_eq a b n n') by assumption. generalize (map (convert_densities b) n'). intros d.
      destruct (rassert _); cbn [bind]; auto. destruct (rassert _); cbn [bind]; auto.
      rewrite (points_eq a b sim sim') by assumption. change (th *! a)%num with (th * a). change (th' *! b)%num with (th' * b). unfold same_length in Hth. rewrite Hth.
      assert (EC : forall rows, mapM (mesh2d_cell a p) rows = mapM (mesh2d_cell b p') rows).
      { induction rows as [|[[[[i j] k] dd] c] rows IH]; [reflexivity|]. cbn [mapM]. rewrite IH. unfold mesh2d_cell at 1 3.
        pose proof (idx_eq a b p p' i Hp) as I1. pose proof (idx_eq a b p p' j Hp) as I2. pose proof (idx_eq a b p p' k Hp) as I3.
        destruct (idx p i), (idx p' i); try contradiction; cbn [bind]; subst; auto.
        destruct (idx p j), (idx p' j); try contradiction; cbn [bind]; subst; auto.
        destruct (idx p k), (idx p' k); try contradiction; cbn [bind]; subst; auto.
        destruct I1 as (A1 & A2), I2 as (A3 & A4), I3 as (A5 & A6). change (@nmul R NumR) with Rmult. rewrite A1, A2, A3, A4, A5, A6. reflexivity. }
      rewrite EC. destruct (mapM _ _); cbn [bind]; auto.
      assert (EB : forall ks, mapM (fun i => let! q := idx p i in Ok (fst q *! a, snd q *! a)%num) ks = mapM (fun i => let! q := idx p' i in Ok (fst q *! b, snd q *! b)%num) ks).
      { intros ks. induction ks as [|i l IH]; [reflexivity|]. cbn [mapM]. rewrite IH. pose proof (idx_eq a b p p' i Hp) as I1.
        destruct (idx p i), (idx p' i); try contradiction; cbn [bind]; subst; auto. destruct I1 as (A1 & A2).
        change (@nmul R NumR) with Rmult. rewrite A1, A2. reflexivity. }
      rewrite EB. reflexivity.
    - intros poly p p' sim sim' n n' ck Hp Hs Hn. unfold homogeneous2d_new. cbn [h2i_length_unit h2i_points h2i_simulation_boundary_points h2i_densities h2i_ck].
      rewrite EU, EU'. cbn [bind]. cbv zeta. rewrite (densities_eq a b n n'), (points_eq a b p p'), (points_eq a b sim sim') by assumption. reflexivity.
    - intros r r' n n' ck Hr Hn. unfold sphere_new. cbn [si_length_unit si_radius si_densities si_ck]. rewrite EU, EU'. cbn [bind]. cbv zeta.
      rewrite (densities_eq a b n n') by assumption. change (r *! a)%num with (r * a). change (r' *! b)%num with (r' * b). unfold same_length in Hr. rewrite Hr. reflexivity.
    - intros ball r r' n n' ck Hr Hn. unfold parryball_new. cbn [si_length_unit si_radius si_densities si_ck]. rewrite EU, EU'. cbn [bind]. cbv zeta.
      rewrite (densities_eq a b n n') by assumption. change (r *! a)%num with (r * a). change (r' *! b)%num with (r' * b). unfold same_length in Hr. rewrite Hr. reflexivity.
    - intros mesh v v' faces n n' ck Hv Hn. unfold parrytrimesh_new. cbn [pti_length_unit pti_densities pti_ck pti_vertices pti_indices]. rewrite EU, EU'. cbn [bind]. cbv zeta.
      rewrite (densities_eq a b n n') by assumption.
      assert (EV : map (fun q : R * R * R => let '(x, y, z) := q in (x *! a, y *! a, z *! a)%num) v = map (fun q : R * R * R => let '(x, y, z) := q in (x *! b, y *! b, z *! b)%num) v').
      { clear -Hv. induction Hv as [|[[x y] z] [[x' y'] z'] l l' ((H1 & H2) & H3) _ IH]; [reflexivity|]. cbn [map fst snd] in *. rewrite IH.
        change (@nmul R NumR) with Rmult. rewrite H1, H2, H3. reflexivity. }
      rewrite EV. reflexivity.
  Qed.
  Example C87_applies :
    metres LU_ANGSTROM = Some (1 / 10 ^ 10) /\ metres LU_NM = Some (1 / 10 ^ 9) /\
    Forall2 (same_length (1 / 10 ^ 10) (1 / 10 ^ 9)) [30] [3] /\ Forall2 (same_density (1 / 10 ^ 10) (1 / 10 ^ 9)) [2] [2000].
  Proof.
    split; [reflexivity|]. split; [reflexivity|]. split; (constructor; [|constructor]); unfold same_length, same_density; lra.
  Qed.
End C87.
Print Assumptions C87_material_in_SI.
Print Assumptions C87_same_target_in_other_units.
