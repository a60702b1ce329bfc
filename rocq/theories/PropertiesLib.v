(** * PropertiesLib.v - C62..C68, C70..C72, C74, C75: the C, Fortran and Python interfaces *)
From Coq Require Import ZArith String List Bool Lia Reals Lra Permutation Floats.SpecFloat.
From Verif Require Import Num NumSF NumR ModelTypes ModelConsts ModelParticle ModelGeometry ModelMaterial ModelBca ModelInput ModelPhysics ModelLib
  Spec SpecR SpecLib ProofsBase ProofsBca ProofsStep ProofsSampling ProofsEnergy ProofsFlight ProofsHalf ProofsLib ProofsFrame ProofsLibR
  Toy ToyR ProofsRefute ToyLibm ToyRun.
Import ListNotations.
Open Scope nat_scope.

(** ** C62: energy_origin *)
Theorem C62_energy_origin_partial :
  forall {F} {NF : Num F},
    (forall input (options : Options F) p, from_input input options = Ok p -> p_energy_origin p = p_E p) /\
    (forall m Z E Ec Es Ed x y z ux uy uz incident track ii,
        p_energy_origin (particle_new m Z E Ec Es Ed x y z ux uy uz incident track ii) = E /\
        p_E (particle_new m Z E Ec Es Ed x y z ux uy uz incident track ii) = E).
Proof.
  intros F NF. split; [|intros; split; reflexivity]. intros input options p H. unfold from_input in H.
  apply bind_ok in H. destruct H as (? & _ & H). apply bind_ok in H. destruct H as (? & _ & H). injection H as <-. reflexivity.
Qed.
Print Assumptions C62_energy_origin_partial.
(** The constructor used by the Python interfaces and the yield functions: the
    energy is in joules, energy_origin in electron volts, for every ion. *)
Theorem C62_default_incident_refuted :
  forall m Z E Ec Es x ux uy uz p, default_incident m Z E Ec Es x ux uy uz = Ok p ->
    p_energy_origin p = E /\ (p_E p = E * cEV)%R /\ p_energy_origin p <> p_E p.
Proof.
  intros m Z E Ec Es x ux uy uz p H. unfold default_incident in H.
  apply bind_ok in H. destruct H as (? & _ & H). apply bind_ok in H. destruct H as (? & HE & H).
  apply rassert_ok, nlt_true in HE. rewrite nZ_R in HE. injection H as <-. cbn [p_energy_origin p_E].
  split; [reflexivity|]. split; [reflexivity|]. intros Heq.
  assert (Hc : (0 < (cEV : R) < 1)%R).
  { change ((0 < IZR 1602176634 / IZR (10 ^ 28) < 1)%R). simpl (10 ^ 28)%Z. lra. }
  change (E = E * cEV)%R in Heq. nra.
Qed.
Print Assumptions C62_default_incident_refuted.
Example C62_default_incident_exists : exists p : Particle spec_float,
  default_incident (nZ 4) (nZ 2) (nZ 100) (nZ 1) (nZ 0) (nlit (-1) (-9)) (nlit 6 (-1)) (nlit 8 (-1)) (nZ 0) = Ok p /\
  p_energy_origin p = nZ 100.
Proof. eexists. split; vm_compute; reflexivity. Qed.

(** ** C63: the arrays of compound_tagged_bca_list_c *)
Section C63.
Context {F : Type} {NF : Num F}.
Lemma tagged_inv build fuel (inp : InputTagged F) rng n o n' :
  compound_tagged_bca_list_c build fuel inp rng n = Ok (o, n') ->
  exists mat outs, length outs = length (it_velocities inp) /\
    (forall j v out, nth_error (it_velocities inp) j = Some v -> nth_error outs j = Some out ->
      exists ion a b, tagged_ion inp (start_x (nsum (it_n2 inp))) j v = Ok ion /\
        single_ion_bca build mat (default_options true) fuel ion rng a = Ok (out, b)) /\
    let ps := filter reported (concat outs) in
    o = mkOutputTagged (length ps) (map row9_tagged ps) (map p_weight ps) (map p_tag ps) (map p_incident ps).
Proof.
  unfold compound_tagged_bca_list_c. intros H. apply mbind_ok in H. destruct H as (mat & n1 & Hm & H).
  apply mbind_ok in H. destruct H as (finished & n2 & Hl & H).
  rewrite tagged_collect_spec in H. cbn [app] in H. apply mret_ok in H. destruct H as (-> & _).
  apply tagged_loop_inv in Hl. destruct Hl as (outs & -> & Hlen & Hall). exists mat, outs.
  split; [exact Hlen|]. split; [exact Hall|]. cbv zeta. rewrite map_length. reflexivity.
Qed.
End C63.
(** The four arrays are the same list of particles seen four ways; that list is
    exactly the reported particles of the runs of the given ions, in order. *)
Theorem C63_arrays_aligned :
  forall {F} {NF : Num F} build fuel (inp : InputTagged F) rng n o n',
    compound_tagged_bca_list_c build fuel inp rng n = Ok (o, n') ->
    exists mat outs, length outs = length (it_velocities inp) /\
      (forall j out, nth_error outs j = Some out ->
         exists ion a b, single_ion_bca build mat (default_options true) fuel ion rng a = Ok (out, b) /\ p_incident ion = true) /\
      let ps := filter reported (concat outs) in
      ot_len o = length ps /\
      ot_particles o = map (fun p => nine p (ndiv (p_E p) cEV) (p_tracked_vector p)) ps /\
      ot_tags o = map p_tag ps /\ ot_weights o = map p_weight ps /\ ot_incident o = map p_incident ps.
Proof.
  intros F NF build fuel inp rng n o n' H. apply tagged_inv in H. destruct H as (mat & outs & Hlen & Hall & ->).
  exists mat, outs. split; [exact Hlen|]. split; [|cbn; repeat split].
  intros j out Hj. destruct (nth_error (it_velocities inp) j) as [v|] eqn:Hv.
  - destruct (Hall j v out Hv Hj) as (ion & a & b & H1 & H2). exists ion, a, b. split; [exact H2|].
    unfold tagged_ion in H1. apply bind_ok in H1. destruct H1 as (? & _ & H1). apply bind_ok in H1. destruct H1 as (? & _ & H1).
    apply bind_ok in H1. destruct H1 as (? & _ & H1). injection H1 as <-. reflexivity.
  - apply nth_error_None in Hv. assert (nth_error outs j <> None) as Hn by congruence. apply nth_error_Some in Hn. lia.
Qed.
Print Assumptions C63_arrays_aligned.
(** Every particle carries the tag, the weight and the position given for the
    ion it comes from; every ion is reported at least once, as incident once. *)
Lemma nth_combine_len {A} (l : list A) j : j < length l -> exists a, nth_error l j = Some a.
Proof. intros H. destruct (nth_error l j) eqn:E; [eauto|]. apply nth_error_None in E. lia. Qed.
Theorem C63_tags_follow_ions :
  forall {F} {NF : Num F} build fuel (inp : InputTagged F) rng n o n',
    compound_tagged_bca_list_c build fuel inp rng n = Ok (o, n') ->
    exists counts, length counts = length (it_velocities inp) /\ Forall (fun k => 1 <= k) counts /\
      ot_tags o = replicate_each (it_tags inp) counts /\
      ot_weights o = replicate_each (it_weights inp) counts /\
      map (fun row => firstn 3 (skipn 3 row)) (ot_particles o) =
        replicate_each (map (fun v => [ndiv (vx v) cANGSTROM; ndiv (vy v) cANGSTROM; ndiv (vz v) cANGSTROM]) (it_positions inp)) counts /\
      length (filter (fun b => b) (ot_incident o)) = length (it_velocities inp).
Proof.
  intros F NF build fuel inp rng n o n' H. apply tagged_inv in H. destruct H as (mat & outs & Hlen & Hall & ->).
  assert (K : forall j out, nth_error outs j = Some out -> exists w t pos,
     nth_error (it_weights inp) j = Some w /\ nth_error (it_tags inp) j = Some t /\ nth_error (it_positions inp) j = Some pos /\
     Forall (fun p => p_weight p = w /\ p_tag p = t /\ p_tracked_vector p = pos) out /\ length (filter p_incident out) = 1 /\ filter reported out <> []).
  { intros j out Hj. assert (Hjl : j < length (it_velocities inp)).
    { rewrite <- Hlen. apply nth_error_Some. congruence. }
    destruct (nth_combine_len _ _ Hjl) as (v & Hv). destruct (Hall j v out Hv Hj) as (ion & a & b & H1 & H2).
    unfold tagged_ion in H1. apply bind_ok in H1. destruct H1 as (w & Hw & H1). apply bind_ok in H1. destruct H1 as (t & Ht & H1).
    apply bind_ok in H1. destruct H1 as (pos & Hp & H1). apply idx_ok in Hw, Ht, Hp.
    exists w, t, pos. split; [exact Hw|]. split; [exact Ht|]. split; [exact Hp|].
    pose proof (run_inherits _ _ _ _ _ _ _ _ _ H2) as Hi.
    assert (Hinc : p_incident ion = true) by (injection H1 as <-; reflexivity).
    pose proof (run_one_incident _ _ _ _ _ _ _ _ _ H2 Hinc) as H3.
    split; [|split; [exact H3|]].
    - injection H1 as <-. exact Hi.
    - intros E. assert (filter p_incident out = []) as E2; [|rewrite E2 in H3; discriminate].
      clear -E. induction out as [|p out IH]; [reflexivity|]. cbn [filter] in *.
      unfold reported at 1 in E. destruct (p_incident p); [destruct (p_left p); discriminate|].
      apply IH. destruct (p_left p); [discriminate|exact E]. }
  set (kept := map (filter reported) outs).
  assert (Hk : forall j out, nth_error kept j = Some out -> exists w t pos,
     nth_error (it_weights inp) j = Some w /\ nth_error (it_tags inp) j = Some t /\ nth_error (it_positions inp) j = Some pos /\
     Forall (fun p => p_weight p = w /\ p_tag p = t /\ p_tracked_vector p = pos) out).
  { intros j out Hj. unfold kept in Hj. rewrite nth_error_map in Hj. destruct (nth_error outs j) as [out0|] eqn:E; [|discriminate].
    injection Hj as <-. destruct (K j out0 E) as (w & t & pos & A1 & A2 & A3 & A4 & _). exists w, t, pos. repeat (split; [assumption|]).
    apply Forall_forall. intros p Hp. apply filter_In in Hp. rewrite Forall_forall in A4. apply A4, Hp. }
  exists (map (@length _) kept). cbv zeta. cbn [ot_tags ot_weights ot_particles ot_incident]. rewrite filter_concat. fold kept.
  split; [unfold kept; rewrite !map_length; exact Hlen|]. split.
  { apply Forall_forall. intros k Hin. apply in_map_iff in Hin. destruct Hin as (out & <- & Hin). unfold kept in Hin.
    apply in_map_iff in Hin. destruct Hin as (out0 & <- & Hin). apply In_nth_error in Hin. destruct Hin as (j & Hj).
    destruct (K j out0 Hj) as (? & ? & ? & _ & _ & _ & _ & _ & Hne). destruct (filter reported out0); [congruence|cbn; lia]. }
  split; [|split; [|split]].
  - apply (concat_nth_map (fun t => t) p_tag). intros j out Hj. destruct (Hk j out Hj) as (w & t & pos & A1 & A2 & A3 & A4).
    exists t. split; [exact A2|]. eapply Forall_impl; [|exact A4]. intros p (_ & Hp & _). exact Hp.
  - apply (concat_nth_map (fun t => t) p_weight). intros j out Hj. destruct (Hk j out Hj) as (w & t & pos & A1 & A2 & A3 & A4).
    exists w. split; [exact A1|]. eapply Forall_impl; [|exact A4]. intros p (Hp & _). exact Hp.
  - rewrite map_map. apply (concat_nth_map (fun row => firstn 3 (skipn 3 row)) row9_tagged). intros j out Hj.
    destruct (Hk j out Hj) as (w & t & pos & A1 & A2 & A3 & A4). eexists. split.
    + rewrite nth_error_map, A3. reflexivity.
    + eapply Forall_impl; [|exact A4]. intros p (_ & _ & Hp). cbn. rewrite Hp. reflexivity.
  - rewrite <- Hlen. unfold kept. assert (K1 : Forall (fun out => length (filter p_incident out) = 1) outs).
    { apply Forall_forall. intros out Hin. apply In_nth_error in Hin. destruct Hin as (j & Hj).
      destruct (K j out Hj) as (? & ? & ? & _ & _ & _ & _ & H1 & _). exact H1. }
    rewrite <- (concat_one_each p_incident outs K1). rewrite <- filter_concat.
    generalize (concat outs). intros l. clear. induction l as [|p l IH]; [reflexivity|]. cbn [filter]. unfold reported at 1.
    destruct (p_left p), (p_incident p) eqn:E; cbn [orb map filter]; try rewrite E; cbn [length]; rewrite ?IH; reflexivity.
Qed.
Print Assumptions C63_tags_follow_ions.
(** two ions; the first is reported with a recoil, the second alone *)
Definition two_tagged : InputTagged spec_float :=
  mkInputTagged [mkV (nZ 0) (nZ 1) (nZ 2); mkV (nZ 3) (nZ 4) (nZ 5)]
    [mkV (nlit 1 5) (nZ 0) (nZ 0); mkV (nlit 6 2) (nlit 8 2) (nZ 0)]
    (nZ 2) (nZ 4) (nZ 1) (nZ 0) [nZ 29] [nlit 6354 (-2)] [nlit 85 (-3)] [nZ 1] [nZ 3] [nZ 0] [7%Z; 9%Z] [nZ 1; nZ 2].
Example C63_nonvacuous : exists o n', compound_tagged_bca_list_c None 60 two_tagged toy_rng 0 = Ok (o, n') /\
  ot_tags o = [7%Z; 7%Z; 9%Z] /\ ot_incident o = [true; false; true].
Proof.
  assert (H : match compound_tagged_bca_list_c None 60 two_tagged toy_rng 0 with Ok (o, _) => (ot_tags o, ot_incident o) | _ => ([], []) end
              = ([7%Z; 7%Z; 9%Z], [true; false; true])) by (vm_compute; reflexivity).
  destruct (compound_tagged_bca_list_c None 60 two_tagged toy_rng 0) as [[o n']|k|]; [|discriminate|discriminate].
  exists o, n'. split; [reflexivity|]. split; congruence.
Qed.

(** ** C64: sizes passed to the allocator *)
Definition frees_what_was_allocated (b : Block) : Prop := freed_bytes b = allocated_bytes b.
Theorem C64_layout_refuted :
  forall len cap, 0 < len -> len <= cap ->
    (forall b, In b (drop_output_bca len cap) -> ~ frees_what_was_allocated b) /\ drop_output_bca len cap <> [] /\
      (forall cap_w cap_t cap_i, exists b, In b (drop_output_tagged_bca len cap cap_w cap_t cap_i) /\ ~ frees_what_was_allocated b).
Proof.
  intros [|len] cap H1 H2; [lia|].
  assert (E : S len <> cap * 72) by lia.
  cbn [drop_output_bca drop_output_tagged_bca]. repeat split.
  - intros b [<-|[]] H. exact (E H).
  - discriminate.
  - intros. eexists. split; [left; reflexivity|]. intros H. exact (E H).
Qed.
Print Assumptions C64_layout_refuted.
(** What is right: nothing is passed to the allocator for an empty result, and
    the incident array of a result without spare capacity has the right size. *)
Theorem C64_layout_partial :
  (forall cap, drop_output_bca 0 cap = []) /\
  (forall a b c d, drop_output_tagged_bca 0 a b c d = []) /\
  (forall len a b c, 0 < len -> exists blk, nth_error (drop_output_tagged_bca len a b c len) 3 = Some blk /\ frees_what_was_allocated blk).
Proof.
  split; [reflexivity|]. split; [reflexivity|]. intros [|len] a b c H; [lia|]. eexists. split; [reflexivity|].
  unfold frees_what_was_allocated, vec_block. cbn [freed_bytes allocated_bytes sizeof_bool]. unfold sizeof_bool. lia.
Qed.
Print Assumptions C64_layout_partial.

(** ** C65: yields and reflection coefficients under every schedule *)
Theorem C65_yield_any_schedule :
  forall {F} {NF : Num F} build fuel (Z1 m1 Ec1 Es1 Z2 m2 Ec2 Es2 Eb2 n2 energy angle : F) rngs result,
    sputtering_yield build fuel Z1 m1 Ec1 Es1 Z2 m2 Ec2 Es2 Eb2 n2 energy angle rngs result ->
    exists mat x outs,
      yield_target [Z2] [m2] [Ec2] [Es2] [Eb2] [n2] = Ok (mat, x) /\
      Forall2 (fun rng out => exists ion n', p_incident ion = true /\
      default_incident m1 Z1 energy Ec1 Es1 x (vx (incidence angle)) (vy (incidence angle)) (vz (incidence angle)) = Ok ion /\
      single_ion_bca build mat (default_options true) fuel ion rng 0 = Ok (out, n')) rngs outs /\
      result = ndiv (nnat (length (filter ejected_recoil (concat outs)))) (nnat (length rngs)).
Proof.
  intros F NF build fuel Z1 m1 Ec1 Es1 Z2 m2 Ec2 Es2 Eb2 n2 energy angle rngs result (mat & x & outs & sch & _ & Ht & Hm & Hs & ->).
  exists mat, x, outs. split; [exact Ht|]. apply mapM_ok in Hm. split.
  - eapply Forall2_imp; [|exact Hm]. intros rng out H. unfold yield_sample in H. apply bind_ok in H. destruct H as (ion & Hi & H).
    apply bind_ok in H. destruct H as ([out' n'] & Ho & H). injection H as <-. exists ion, n'.
    split; [eapply default_incident_flag; eauto|]. auto.
  - unfold sputtering_yield_of. f_equal. f_equal. apply interleave_perm in Hs.
    rewrite (Permutation_length (filter_perm (counted false) _ _ (Permutation_sym Hs))).
    f_equal. apply filter_ext. intros p. apply counted_false.
Qed.
Print Assumptions C65_yield_any_schedule.
Lemma reflection_samples {F} {NF : Num F} build fuel mat x (m1 Z1 energy Ec1 Es1 : F) u rngs outs :
  mapM (yield_sample build fuel mat (default_options false) x m1 Z1 energy Ec1 Es1 u) rngs = Ok outs ->
  Forall2 (fun rng out => exists ion n', p_incident ion = true /\
        default_incident m1 Z1 energy Ec1 Es1 x (vx u) (vy u) (vz u) = Ok ion /\
        single_ion_bca build mat (default_options false) fuel ion rng 0 = Ok (out, n')) rngs outs.
Proof.
  intros Hm. apply mapM_ok in Hm. eapply Forall2_imp; [|exact Hm]. intros rng out H. unfold yield_sample in H.
  apply bind_ok in H. destruct H as (ion & Hi & H). apply bind_ok in H. destruct H as ([out' n'] & Ho & H). injection H as <-.
  exists ion, n'. split; [eapply default_incident_flag; eauto|]. auto.
Qed.
(** The particle reflection coefficient in any arithmetic, and the energy
    reflection coefficient in exact arithmetic. *)
Theorem C65_reflection_any_schedule_partial :
  (forall {F} {NF : Num F} build fuel (Z1 m1 Ec1 Es1 : F) Z2 m2 Ec2 Es2 Eb2 n2 energy angle rngs RN RE,
    reflection_coefficient build fuel Z1 m1 Ec1 Es1 Z2 m2 Ec2 Es2 Eb2 n2 energy angle rngs (RN, RE) ->
    exists mat x outs,
      yield_target Z2 m2 Ec2 Es2 Eb2 n2 = Ok (mat, x) /\
      Forall2 (fun rng out => exists ion n', p_incident ion = true /\
        default_incident m1 Z1 energy Ec1 Es1 x (vx (incidence angle)) (vy (incidence angle)) (vz (incidence angle)) = Ok ion /\
        single_ion_bca build mat (default_options false) fuel ion rng 0 = Ok (out, n')) rngs outs /\
      RN = ndiv (nnat (length (filter ejected_ion (concat outs)))) (nnat (length rngs)) /\
      length (filter ejected_ion (concat outs)) <= length rngs) /\
  (forall build fuel (Z1 m1 Ec1 Es1 : R) Z2 m2 Ec2 Es2 Eb2 n2 energy angle rngs RN RE,
    reflection_coefficient build fuel Z1 m1 Ec1 Es1 Z2 m2 Ec2 Es2 Eb2 n2 energy angle rngs (RN, RE) ->
    exists mat x outs,
      yield_target Z2 m2 Ec2 Es2 Eb2 n2 = Ok (mat, x) /\
      mapM (yield_sample build fuel mat (default_options false) x m1 Z1 energy Ec1 Es1 (incidence angle)) rngs = Ok outs /\
      RN = (INR (length (filter ejected_ion (concat outs))) / INR (length rngs))%R /\
      RE = (Rsum (map (@p_E R) (filter ejected_ion (concat outs))) / cEV / energy / INR (length rngs))%R /\
      (rngs <> [] -> 0 <= RN <= 1)%R).
Proof.
  assert (Hlen : forall {F} {NF : Num F} build fuel mat x (m1 Z1 energy Ec1 Es1 : F) u rngs outs,
     mapM (yield_sample build fuel mat (default_options false) x m1 Z1 energy Ec1 Es1 u) rngs = Ok outs ->
     length (filter ejected_ion (concat outs)) <= length rngs).
  { intros F NF build fuel mat x m1 Z1 energy Ec1 Es1 u rngs outs Hm. apply reflection_samples in Hm.
    assert (K : Forall (fun l => length (filter p_incident l) = 1) outs).
    { clear -Hm. induction Hm as [|rng out rngs outs (ion & n' & Hi & _ & Ho) _ IH]; constructor; [|exact IH].
      eapply run_one_incident; eauto. }
    apply concat_one_each in K. pose proof (counted_le_incident (concat outs)) as Hc.
    rewrite (filter_ext (counted true) ejected_ion counted_true) in Hc. apply Forall2_len in Hm. lia. }
  assert (Hcount : forall {F} {NF : Num F} (outs : list (list (Particle F))) sch, Interleave outs sch ->
     Permutation (filter (counted true) sch) (filter ejected_ion (concat outs))).
  { intros F NF outs sch Hs. rewrite <- (filter_ext (counted true) ejected_ion counted_true). apply filter_perm, Permutation_sym, interleave_perm, Hs. }
  split.
  - intros F NF build fuel Z1 m1 Ec1 Es1 Z2 m2 Ec2 Es2 Eb2 n2 energy angle rngs RN RE (mat & x & outs & sch & _ & Ht & Hm & Hs & E).
    exists mat, x, outs. split; [exact Ht|]. split; [apply reflection_samples; exact Hm|].
    split; [|eapply Hlen; eauto]. unfold reflection_coefficient_of in E.
    rewrite (Permutation_length (Hcount _ _ _ _ Hs)) in E. congruence.
  - intros build fuel Z1 m1 Ec1 Es1 Z2 m2 Ec2 Es2 Eb2 n2 energy angle rngs RN RE (mat & x & outs & sch & _ & Ht & Hm & Hs & E).
    exists mat, x, outs. split; [exact Ht|]. split; [exact Hm|].
    unfold reflection_coefficient_of in E. rewrite (Permutation_length (Hcount _ _ _ _ Hs)) in E.
    rewrite fold_energy, (Rsum_perm _ _ (Permutation_map (@p_E R) (Hcount _ _ _ _ Hs))) in E.
    rewrite !nnat_R, nZ_R, Rplus_0_l in E. apply Hlen in Hm.
    assert (E1 : RN = (INR (length (filter ejected_ion (concat outs))) / INR (length rngs))%R) by exact (f_equal fst E).
    split; [exact E1|]. split; [exact (f_equal snd E)|]. intros Hne. rewrite E1.
    assert (0 < INR (length rngs))%R by (apply lt_0_INR; destruct rngs; [congruence|cbn; lia]).
    apply le_INR in Hm. pose proof (pos_INR (length (filter ejected_ion (concat outs)))).
    set (a := INR (length (filter _ _))) in *. set (b := INR (length rngs)) in *. assert (a / b * b = a)%R by (field; lra).
    split; nra.
Qed.
Print Assumptions C65_reflection_any_schedule_partial.
(** In binary64 the energy reflection coefficient depends on the order in which
    the threads reach the counter. *)
Definition tiny : spec_float := S754_finite false 4503599627370496 (-105).     (* 2^-53 *)
Definition reflected_with (E : spec_float) : Particle spec_float :=
  set_p_left true (set_p_E E (set_p_dir (mkV (nZ (-1)) (nZ 0) (nZ 0)) toy_ion)).
Theorem C65_energy_schedule_refuted :
  forall lm, exists (outs : list (list (Particle spec_float))) s1 s2,
    Interleave outs s1 /\ Interleave outs s2 /\
    fst (@reflection_coefficient_of _ (NumSF lm) (sf_lit 1 0) 3 s1) = fst (@reflection_coefficient_of _ (NumSF lm) (sf_lit 1 0) 3 s2) /\
    SFltb (snd (@reflection_coefficient_of _ (NumSF lm) (sf_lit 1 0) 3 s1)) (snd (@reflection_coefficient_of _ (NumSF lm) (sf_lit 1 0) 3 s2)) = true.
Proof.
  intros lm. set (a := reflected_with (nZ 1)). set (b := reflected_with tiny).
  exists [[a]; [b]; [b]], [a; b; b], [b; b; a]. split; [apply (interleave_sequential [[a]; [b]; [b]])|]. split.
  - apply (il_step [[a]] b [] [[b]]). apply (il_step [[a]; []] b [] []). apply (il_step [] a [] [[]; []]).
    constructor. repeat constructor.
  - split; vm_compute; reflexivity.
Qed.
Print Assumptions C65_energy_schedule_refuted.
(** ... and this happens in a real run: the same three random streams, two schedules. *)
Theorem C65_same_run_two_schedules_refuted :
  exists (rngs : list (Rng spec_float)) r1 r2,
    @reflection_coefficient _ series_num None 200 (nZ 2) (nZ 4) (nZ 1) (nZ 0) [nZ 29] [nZ 63] [nZ 1] [nlit 1 (-1)] [nZ 0] [nlit 85 27] (nZ 15) (nZ 30) rngs r1 /\
    @reflection_coefficient _ series_num None 200 (nZ 2) (nZ 4) (nZ 1) (nZ 0) [nZ 29] [nZ 63] [nZ 1] [nlit 1 (-1)] [nZ 0] [nlit 85 27] (nZ 15) (nZ 30) rngs r2 /\
    length rngs = 3 /\ SFeqb (snd r1) (snd r2) = false.
Proof.
  destruct reflection_depends_on_schedule as (r1 & r2 & H1 & H2 & _ & _ & H3). exists (map lcg [6; 8; 10]%Z), r1, r2. auto.
Qed.
Print Assumptions C65_same_run_two_schedules_refuted.
Example C65_yield_nonvacuous : exists rngs r,
  @sputtering_yield _ series_num None 200 (nZ 2) (nZ 4) (nZ 1) (nZ 0) (nZ 29) (nZ 63) (nZ 1) (nlit 1 (-1)) (nZ 0) (nlit 85 27) (nZ 15) (nZ 30) rngs r /\
  SFeqb r (sf_lit 1 0) = true.
Proof. destruct yield_is_one as (r & H). exists (map lcg [7; 11]%Z), r. exact H. Qed.

(** ** C66: surface-normal frames *)
(** The matrix is a rotation taking the inward normal to the x axis, and
    rotate_back is its inverse. *)
Theorem C66_frame_rotation :
  forall nx ny nz, is_unit (mkV nx ny nz) ->
    exists A : Vector R -> Vector R,
      A (mkV (- nx) (- ny) (- nz))%R = mkV 1%R 0%R 0%R /\
      (forall u w, vdot (A u) (A w) = vdot u w) /\
      (forall u, rotate_back nx ny nz (A u) = u) /\ (forall u, A (rotate_back nx ny nz u) = u) /\
      (forall u w, vdot (rotate_back nx ny nz u) (rotate_back nx ny nz w) = vdot u w) /\
      (* the forward map is A, then a shift by (1e-9, -1e-9, 0) and normalisation *)
      (forall u, let w := vplus (A u) (mkV (1 / 1000000000) (- (1 / 1000000000)) 0)%R in
         rotate_given_surface_normal nx ny nz u =
         if Rltb 0 (vx w) then Ok (vscale (/ sqrt (vdot w w)) w) else Panic AssertFail).
Proof.
  intros nx ny nz H. exists (frame nx ny nz). split; [apply frame_normal, H|]. split; [intros; apply frame_dot, H|].
  split; [intros; apply frame_back, H|]. split; [intros; apply back_frame, H|]. split; [intros; apply back_dot, H|].
  intros u. cbv zeta. rewrite rotate_value. reflexivity.
Qed.
Print Assumptions C66_frame_rotation.
(** The two interface functions: for a unit normal and a unit direction, the
    forward map rejects exactly the directions pointing out of the surface (by
    more than 1e-9), otherwise gives a unit vector with positive x component,
    and mapping it back gives the direction within 3e-9. *)
Theorem C66_round_trip :
  forall nx ny nz u, is_unit (mkV nx ny nz) -> is_unit u ->
    (vdot u (mkV nx ny nz) < 1 / 1000000000 ->
       exists v, rotate_given_surface_normal nx ny nz u = Ok v /\ is_unit v /\ 0 < vx v /\
         vdist u (rotate_back nx ny nz v) <= 3 / 1000000000)%R /\
    (1 / 1000000000 <= vdot u (mkV nx ny nz) -> rotate_given_surface_normal nx ny nz u = Panic AssertFail)%R.
Proof.
  intros nx ny nz u Hn Hu. rewrite rotate_value, frame_x by exact Hn. change (1 / 1000000000)%R with delta. split.
  - intros H. replace (Rltb 0 (- vdot u (mkV nx ny nz) + delta)) with true by (symmetry; apply (proj2 (nlt_true _ _)); lra).
    assert (Hx : (0 < vx (vplus (frame nx ny nz u) nudge))%R) by (cbn [vx vplus nudge]; rewrite frame_x by exact Hn; lra).
    pose proof (vlen_pos _ Hx) as Hl. eexists. split; [reflexivity|]. split; [|split].
    + unfold is_unit. rewrite vdot_scale, <- vlen_sq. field. lra.
    + cbn [vscale vx]. apply Rmult_lt_0_compat; [apply Rinv_0_lt_compat; exact Hl|exact Hx].
    + rewrite back_linear, frame_back by exact Hn.
      assert (E : vlen (vplus (frame nx ny nz u) nudge) = vlen (vplus u (rotate_back nx ny nz nudge))).
      { unfold vlen. f_equal. rewrite <- (back_dot nx ny nz) by exact Hn.
        replace (vplus (frame nx ny nz u) nudge) with (vscale 1 (vplus (frame nx ny nz u) nudge)) at 1 2
          by (unfold vscale, vplus; cbn [vx vy vz]; f_equal; ring).
        rewrite back_linear, frame_back by exact Hn. unfold vdot, vscale, vplus. cbn [vx vy vz]. ring. }
      rewrite E. replace (3 / 1000000000)%R with (3 * delta)%R by (unfold delta; lra). apply normalise_near.
      * exact Hu.
      * rewrite back_dot, nudge_len by exact Hn. lra.
      * rewrite <- E. exact Hl.
  - intros H. replace (Rltb 0 (- vdot u (mkV nx ny nz) + delta)) with false; [reflexivity|].
    symmetry. apply (proj2 (nlt_false _ _)). lra.
Qed.
Print Assumptions C66_round_trip.
Example C66_nonvacuous : is_unit (mkV (-6 / 10) (8 / 10) 0)%R /\ is_unit (mkV 0 0 1)%R /\ (vdot (mkV 0 0 1) (mkV (-6 / 10) (8 / 10) 0) < 1 / 1000000000)%R.
Proof. unfold is_unit, vdot. cbn. repeat split; lra. Qed.

(** ** C67: simple_compound_bca *)
(** Whatever the species lists, only the first species can ever be chosen: a
    random number that selects another one panics. *)
Theorem C67_other_species_refuted :
  forall {F} {NF : Num F} (Z2 m2 Ec2 Es2 n2 Eb2 : list F) mat,
    simple_compound_target Z2 m2 Ec2 Es2 n2 Eb2 = Ok mat ->
    forall r x y z cs i, get_cumulative_concentrations mat x y z = Ok cs -> choose_index r 0 cs = Some i ->
      (forall s, choose_with mat r x y z = Ok s -> i = 0) /\
      (0 < i -> Forall (fun l => i < length l) [Z2; m2; Ec2; Es2] -> choose_with mat r x y z = Panic IndexOOB).
Proof.
  intros F NF Z2 m2 Ec2 Es2 n2 Eb2 mat H r x y z cs i Hc Hi.
  unfold choose_with. rewrite Hc. cbn [bind]. rewrite Hi.
  unfold simple_compound_target, target_0d, material_new in H.
  cbn [mp_energy_unit mp_mass_unit energy_unit_value mass_unit_value bind] in H.
  apply bind_ok in H. destruct H as (g & _ & H). injection H as <-.
  cbn [mat_Z mat_m mat_Ec mat_Es mat_Ed mat_interaction_index mp_Z mp_m mp_Ec mp_Es mp_Ed mp_interaction_index].
  split.
  - intros s Hs. do 5 (apply bind_ok in Hs; destruct Hs as (? & _ & Hs)). apply bind_ok in Hs. destruct Hs as (ii & Hii & _).
    apply idx_ok in Hii. destruct i as [|i]; [reflexivity|]. destruct i; discriminate.
  - intros Hpos Hl. inversion_clear Hl as [|? ? L1 Hl']. inversion_clear Hl' as [|? ? L2 Hl'']. inversion_clear Hl'' as [|? ? L3 Hl3].
    inversion_clear Hl3 as [|? ? L4 _].
    destruct (idx_lt Z2 i L1) as (a1 & ->). cbn [bind].
    match goal with |- context [bind (idx ?l i)] => destruct (idx_lt l i) as (a2 & ->); [rewrite map_length; exact L2|] end. cbn [bind].
    match goal with |- context [bind (idx ?l i)] => destruct (idx_lt l i) as (a3 & ->); [rewrite map_length; exact L3|] end. cbn [bind].
    match goal with |- context [bind (idx ?l i)] => destruct (idx_lt l i) as (a4 & ->); [rewrite map_length; exact L4|] end. cbn [bind].
    match goal with |- context [bind (idx ?l i)] => destruct (idx_lt l i) as (a5 & ->); [rewrite map_length, repeat_length; exact L1|] end. cbn [bind].
    destruct i as [|i]; [lia|]. destruct i; reflexivity.
Qed.
Print Assumptions C67_other_species_refuted.
(** A run with two species of equal standing: it panics in the first step. *)
Theorem C67_run_panics_refuted :
  exists rng, (forall k, rng k = sf_lit 5 (-1)) /\
  @simple_compound_bca _ series_num None 200 (nlit (-1) (-10)) (nZ 0) (nZ 0) (nlit 8 (-1)) (nlit 6 (-1)) (nZ 0) (nZ 15) (nZ 2) (nZ 4) (nZ 1) (nZ 0)
    [nZ 29; nZ 79] [nZ 63; nZ 197] [nZ 1; nZ 1] [nZ 3; nZ 3] [nlit 4 (-2); nlit 6 (-2)] [nZ 0; nZ 0] rng 0 = Panic IndexOOB.
Proof. exists (fun _ => sf_lit 5 (-1)). split; [reflexivity|]. vm_compute. reflexivity. Qed.
Print Assumptions C67_run_panics_refuted.
(** With one species it is the single-species function. *)
Theorem C67_one_species_partial :
  forall {F} {NF : Num F} build fuel (x y z ux uy uz E1 Z1 m1 Ec1 Es1 Z2 m2 Ec2 Es2 n2 Eb2 : F) rng n,
    nlt (nZ 0) Ec2 = true ->
    simple_compound_bca build fuel x y z ux uy uz E1 Z1 m1 Ec1 Es1 [Z2] [m2] [Ec2] [Es2] [n2] [Eb2] rng n =
    simple_bca build fuel x y z ux uy uz E1 Z1 m1 Ec1 Es1 Z2 m2 Ec2 Es2 n2 Eb2 rng n.
Proof.
  intros F NF build fuel x y z ux uy uz E1 Z1 m1 Ec1 Es1 Z2 m2 Ec2 Es2 n2 Eb2 rng n H.
  unfold simple_compound_bca, simple_bca, simple_compound_target. cbn [length repeat]. unfold mbind, mlift.
  destruct (rassert (nlt (nZ 0) E1)); [|reflexivity|reflexivity]. destruct (rassert (nlt (nZ 0) Ec1)); [|reflexivity|reflexivity].
  rewrite H. reflexivity.
Qed.
Print Assumptions C67_one_species_partial.
Example C67_one_species_runs : exists rows n',
  @simple_bca _ series_num None 200 (nlit (-1) (-10)) (nZ 0) (nZ 0) (nlit 8 (-1)) (nlit 6 (-1)) (nZ 0) (nZ 15) (nZ 2) (nZ 4) (nZ 1) (nZ 0)
    (nZ 29) (nZ 63) (nZ 1) (nZ 3) (nlit 85 (-3)) (nZ 0) (lcg 11) 0 = Ok (rows, n').
Proof.
  assert (H : passes (fun _ => true) (@simple_bca _ series_num None 200 (nlit (-1) (-10)) (nZ 0) (nZ 0) (nlit 8 (-1)) (nlit 6 (-1)) (nZ 0)
     (nZ 15) (nZ 2) (nZ 4) (nZ 1) (nZ 0) (nZ 29) (nZ 63) (nZ 1) (nZ 3) (nlit 85 (-3)) (nZ 0) (lcg 11) 0) = true) by (vm_compute; reflexivity).
  destruct (@simple_bca _ _ _ _ _ _ _ _ _ _ _ _ _ _ _ _ _ _ _ _ _ _ _) as [[rows n']|k|]; [|discriminate|discriminate]. eauto.
Qed.

(** ** C68: the command line *)
Section C68.
Open Scope string_scope.
Definition documented_geometries (parry3d : bool) : list (string * GeometryType) :=
  [("0D", G_MESH0D); ("1D", G_MESH1D); ("2D", G_MESH2D); ("SPHERE", G_SPHERE); ("HOMOGENEOUS2D", G_HOMOGENEOUS2D)] ++
  (if parry3d then [("BALL", G_BALL); ("TRIMESH", G_TRIMESH)] else []).
Theorem C68_command_line :
  forall parry3d program,
    parse_args parry3d [program] = Ok ("input.toml", G_MESH2D) /\
    (forall file, parse_args parry3d [program; file] = Ok (file, G_MESH2D)) /\
    (forall name file file' g, parse_args parry3d [program; name; file] = Ok (file', g) <->
        file' = file /\ In (name, g) (documented_geometries parry3d)) /\
    (forall args, length args <> 1 -> length args <> 2 -> length args <> 3 -> parse_args parry3d args = Panic ExplicitPanic) /\
    (forall name file, (forall g, ~ In (name, g) (documented_geometries parry3d)) ->
        parse_args parry3d [program; name; file] = Panic ExplicitPanic).
Proof.
  intros parry3d program. split; [reflexivity|]. split; [reflexivity|].
  assert (K : forall name, (exists g, parse_geometry parry3d name = Ok g /\ forall g', In (name, g') (documented_geometries parry3d) <-> g' = g) \/
     (parse_geometry parry3d name = Panic ExplicitPanic /\ forall g', ~ In (name, g') (documented_geometries parry3d))).
  { intros name.
    assert (Hd : {g | In (name, g) (documented_geometries parry3d)} + {forall g, ~ In (name, g) (documented_geometries parry3d)}).
    { induction (documented_geometries parry3d) as [|[a g] l IH]; [right; intros g []|].
      destruct (string_dec name a) as [->|Hne]; [left; exists g; left; reflexivity|].
      destruct IH as [(g' & Hg)|Hn]; [left; exists g'; right; exact Hg|]. right. intros g' [Hg|Hg]; [congruence|exact (Hn _ Hg)]. }
    assert (Hin : forall g, In (name, g) (documented_geometries parry3d) -> parse_geometry parry3d name = Ok g).
    { intros g. destruct parry3d; cbn [documented_geometries app In]; intros Hg; repeat destruct Hg as [Hg|Hg]; try contradiction;
        injection Hg as <- <-; reflexivity. }
    destruct Hd as [(g & Hg)|Hn].
    - left. exists g. split; [apply Hin, Hg|]. intros g'. split; [intros H; apply Hin in H; apply Hin in Hg; congruence|intros ->; exact Hg].
    - right. split; [|exact Hn]. unfold parse_geometry.
      destruct (String.eqb_spec name "0D"); [exfalso; subst; eapply Hn; left; reflexivity|].
      destruct (String.eqb_spec name "1D"); [exfalso; subst; eapply Hn; right; left; reflexivity|].
      destruct (String.eqb_spec name "2D"); [exfalso; subst; eapply Hn; do 2 right; left; reflexivity|].
      destruct (String.eqb_spec name "SPHERE"); [exfalso; subst; eapply Hn; do 3 right; left; reflexivity|].
      destruct (String.eqb_spec name "HOMOGENEOUS2D"); [exfalso; subst; eapply Hn; do 4 right; left; reflexivity|].
      destruct parry3d; [|reflexivity].
      destruct (String.eqb_spec name "BALL"); [exfalso; subst; eapply Hn; do 5 right; left; reflexivity|].
      destruct (String.eqb_spec name "TRIMESH"); [exfalso; subst; eapply Hn; do 6 right; left; reflexivity|]. reflexivity. }
  split; [|split].
  - intros name file file' g. cbn [parse_args]. destruct (K name) as [(g0 & E & Hin)|(E & Hin)]; rewrite E; cbn [bind].
    + rewrite Hin. split; [intros H; split; congruence|]. intros (-> & ->). reflexivity.
    + split; [discriminate|]. intros (_ & H). destruct (Hin _ H).
  - intros args H1 H2 H3. destruct args as [|a [|b [|c [|d args]]]]; cbn in *; try congruence; reflexivity.
  - intros name file H. cbn [parse_args]. destruct (K name) as [(g0 & E & Hin)|(E & Hin)]; rewrite E; [|reflexivity].
    destruct (H g0). apply Hin. reflexivity.
Qed.
Print Assumptions C68_command_line.
End C68.

(** ** C70: where the interfaces start the ion *)
(** Every half-space target these interfaces build, with any positive total
    density: the starting point is already inside the energy barrier. *)
Theorem C70_start_inside_barrier_refuted :
  forall sbm (Z2 m2 n2 Ec2 Es2 Eb2 Ed2 : list R) ii mat y z,
    target_0d sbm LU_ANGSTROM Z2 m2 n2 Ec2 Es2 Eb2 Ed2 ii = Ok mat -> (0 < Rsum n2)%R ->
    in_barrier mat (mkV (start_x (nsum n2)) y z) = Ok true /\ (start_x (nsum n2) < 0)%R.
Proof. exact start_inside. Qed.
Print Assumptions C70_start_inside_barrier_refuted.
Example C70_target_exists : exists mat, target_0d SBM_AVERAGE LU_ANGSTROM [29%R] [63%R] [(85 / 1000)%R] [1%R] [3%R] [0%R] [0%R] [0%nat] = Ok mat /\ (0 < Rsum [85 / 1000])%R.
Proof. eexists. split; [reflexivity|]. unfold Rsum. cbn [fold_right]. lra. Qed.
(** The layered Python interface starts at half a barrier thickness. *)
Theorem C70_layered_start_inside_barrier_refuted :
  forall (g : Mesh1D R) y z mp mat,
    material_new mp (Ok (mesh1d_geometry g)) = Ok mat -> m1_top g = 0%R ->
    (0 < m1_top_energy_barrier_thickness g -> 0 < m1_bottom g -> 0 < m1_bottom_energy_barrier_thickness g ->
     in_barrier mat (mkV (ndiv (nneg (m1_top_energy_barrier_thickness g)) (nZ 2)) y z) = Ok true)%R.
Proof.
  intros g y z mp mat H Ht H1 H2 H3. unfold material_new in H. apply bind_ok in H. destruct H as (? & _ & H).
  apply bind_ok in H. destruct H as (? & _ & H). apply bind_ok in H. destruct H as (gg & Hg & H). injection Hg as <-. injection H as <-.
  unfold in_barrier. cbn [mat_geometry mesh1d_geometry g_inside_energy_barrier vx]. f_equal. apply andb_true_iff.
  rewrite Ht. split; apply nlt_true; toR; lra.
Qed.
Print Assumptions C70_layered_start_inside_barrier_refuted.
(** The yield functions and reflect_single_ion_py start on the edge of the
    barrier, which counts as outside. *)
Theorem C70_yield_start_outside_partial :
  forall (Z2 m2 Ec2 Es2 Eb2 n2 : list R) mat x y z,
    yield_target Z2 m2 Ec2 Es2 Eb2 n2 = Ok (mat, x) -> in_barrier mat (mkV x y z) = Ok false.
Proof.
  intros Z2 m2 Ec2 Es2 Eb2 n2 mat x y z H. unfold yield_target in H. apply bind_ok in H. destruct H as (g & _ & H).
  apply bind_ok in H. destruct H as (mat' & Hm & H). injection H as <- <-. unfold material_new in Hm.
  apply bind_ok in Hm. destruct Hm as (? & _ & Hm). apply bind_ok in Hm. destruct Hm as (? & _ & Hm).
  apply bind_ok in Hm. destruct Hm as (gg & Hg & Hm). injection Hg as <-. injection Hm as <-.
  unfold in_barrier. cbn [mat_geometry mesh0d_geometry g_inside_energy_barrier vx]. f_equal. apply nlt_false. apply Rle_refl.
Qed.
Print Assumptions C70_yield_start_outside_partial.

(** ** C71: reflect_single_ion_c *)
(** An ion below its cutoff energy, entering at a shallow angle, stops in the
    barrier and is reported with its full energy, for every target, random
    stream and build. *)
Theorem C71_stopped_ion_reported_refuted :
  forall build fuel (ux uy uz E1 Z1 m1 Ec1 Es1 Z2 m2 Ec2 Es2 Eb2 n2 : R) rng n,
    (0 < n2 -> unit_randoms rng -> 0 <= ux <= 2 / 10 -> 0 < E1 < Ec1 ->
     exists n' o, reflect_single_ion_c build (S (S fuel)) ux uy uz E1 Z1 m1 Ec1 Es1 [Z2] [m2] [Ec2] [Es2] [Eb2] [n2] rng n
                = Ok ((ux, uy, uz, E1), n') /\
       single_ion_bca build (one_species Z2 m2 Ec2 Es2 Eb2 n2) (default_options false) (S (S fuel))
         (literal_incident (m1 * cAMU) Z1 (E1 * cEV) (Ec1 * cEV) (Es1 * cEV) (start_x (nsum [n2])) 0 0 ux uy uz 1 0%Z (mkV 0 0 0)) rng n = Ok ([o], n') /\
       p_left o = false /\ p_stopped o = true /\ E1 <> 0)%R.
Proof.
  intros build fuel ux uy uz E1 Z1 m1 Ec1 Es1 Z2 m2 Ec2 Es2 Eb2 n2 rng n Hn Hr Hux HE.
  assert (Hc : (0 < (cEV : R))%R).
  { change ((0 < IZR 1602176634 / IZR (10 ^ 28))%R). simpl (10 ^ 28)%Z. lra. }
  set (ion := literal_incident (m1 * cAMU)%R Z1 (E1 * cEV)%R (Ec1 * cEV)%R (Es1 * cEV)%R (start_x (nsum [n2])) 0%R 0%R ux uy uz 1%R 0%Z (mkV 0%R 0%R 0%R)).
  destruct (stays_outside false build fuel Z2 m2 Ec2 Es2 Eb2 n2 ion rng n Hn Hr) as (o & n' & Ho & Hl & Hs & Hx & HoE & Hod);
    try reflexivity; try (split; reflexivity); try exact Hux; try exact (nZ_R 0).
  - change (E1 * cEV < Ec1 * cEV)%R. apply Rmult_lt_compat_r; [exact Hc|apply HE].
  - exists n', o. split; [|repeat split; try assumption; lra].
    unfold reflect_single_ion_c. unfold mbind at 1, mlift at 1.
    replace (nlt (nZ 0) E1) with true by (symmetry; apply nlt_true; rewrite nZ_R; lra). cbn [rassert].
    unfold mbind at 1, mlift at 1. cbn [length]. rewrite one_species_target. unfold mbind at 1. rewrite !nZ_R.
    change (literal_incident (m1 *! cAMU)%num Z1 (E1 *! cEV)%num (Ec1 *! cEV)%num (Es1 *! cEV)%num (start_x (nsum [n2])) 0%R 0%R ux uy uz
              1%R 0%Z (mkV 0%R 0%R 0%R)) with ion. rewrite Ho.
    unfold mbind, mlift, mret. cbn [idx nth_error]. rewrite Hod. replace (nle 0%R (vx (p_pos o))) with false by (symmetry; apply nle_false; lra).
    rewrite HoE. cbn [ion literal_incident p_dir p_E vx vy vz]. f_equal. f_equal. f_equal.
    change (E1 * cEV / cEV = E1)%R. field. lra.
Qed.
Print Assumptions C71_stopped_ion_reported_refuted.
Example C71_nonvacuous : unit_randoms zero_rng /\ (0 < 85 / 1000 /\ 0 <= 1 / 10 <= 2 / 10 /\ 0 < 1 < 2)%R.
Proof. split; [exact zero_rng_unit|lra]. Qed.
(** What holds: an ion that left is reported with its energy, and one that
    stopped below the surface with zero. *)
Theorem C71_reported_energy_partial :
  forall build fuel (ux uy uz E1 Z1 m1 Ec1 Es1 : R) Z2 m2 Ec2 Es2 Eb2 n2 rng n a b c e n', (0 < Rsum n2)%R ->
    reflect_single_ion_c build fuel ux uy uz E1 Z1 m1 Ec1 Es1 Z2 m2 Ec2 Es2 Eb2 n2 rng n = Ok ((a, b, c, e), n') ->
    exists mat ion o, p_incident ion = true /\ single_ion_bca build mat (default_options false) fuel ion rng n = Ok ([o], n') /\
      mkV a b c = p_dir o /\
      (p_left o = true -> e = p_E o / cEV)%R /\ (p_left o = false -> 0 <= vx (p_pos o) -> e = 0)%R /\
      (e = 0 \/ e = p_E o / cEV)%R.
Proof.
  intros build fuel ux uy uz E1 Z1 m1 Ec1 Es1 Z2 m2 Ec2 Es2 Eb2 n2 rng n a b c e n' Hn H. unfold reflect_single_ion_c in H.
  apply mbind_ok in H. destruct H as (? & k1 & H0 & H). apply mlift_ok in H0. destruct H0 as (_ & ->).
  apply mbind_ok in H. destruct H as (mat & k2 & Hm & H). apply mlift_ok in Hm. destruct Hm as (Hm & ->).
  apply mbind_ok in H. destruct H as (out & k3 & Ho & H).
  apply mbind_ok in H. destruct H as (o & k4 & Hi & H). apply mlift_ok in Hi. destruct Hi as (Hi & ->). apply mret_ok in H. destruct H as (H & ->).
  pose proof (run_no_recoils _ _ _ _ _ _ _ _ _ (eq_refl : o_track_recoils (default_options (F:=R) false) = false) Ho) as (o' & -> & Hid). apply idx_ok in Hi. injection Hi as ->.
  pose proof (run_finished _ _ _ _ _ _ _ _ _ Ho) as Hfin. inversion_clear Hfin as [|? ? Hf _].
  assert (He : e = if nle (nZ 0) (vx (p_pos o)) then nZ 0 else ndiv (p_E o) cEV) by exact (f_equal snd H).
  assert (Ha : a = vx (p_dir o)) by exact (f_equal (fun t => fst (fst (fst t))) H).
  assert (Hb : b = vy (p_dir o)) by exact (f_equal (fun t => snd (fst (fst t))) H).
  assert (Hc : c = vz (p_dir o)) by exact (f_equal (fun t => snd (fst t)) H). clear H. rewrite He, Ha, Hb, Hc. clear He Ha Hb Hc.
  exists mat. eexists. exists o. split; [|split; [exact Ho|]]; [reflexivity|].
  split; [destruct (p_dir o); reflexivity|]. rewrite nZ_R. split; [|split].
  - intros Hl. destruct Hf as [(_ & Hl' & _)|(_ & _ & Hbd)]; [congruence|].
    destruct (target_0d_inv _ _ _ _ _ _ _ _ _ _ Hm) as (g & Hg & _ & Ht). unfold in_boundary, mat_inside_simulation_boundary in Hbd. rewrite Hg in Hbd.
    cbn [mesh0d_geometry g_inside_simulation_boundary] in Hbd. rewrite Ht in Hbd. apply nlt_false in Hbd.
    assert (H30 : (0 < IZR (10 ^ 30))%R) by (apply (IZR_lt 0); reflexivity).
    rewrite thickness_R in Hbd by (rewrite convert_sum; apply Rmult_lt_0_compat; assumption). rewrite nZ_R in Hbd.
    pose proof two_over_sqrtpi as Hp. set (q := Rpower _ _) in Hbd. assert (Hq : (0 < q)%R) by apply exp_pos.
    change (vx (p_pos o) <= -10 * (2 / sqrt PI * q))%R in Hbd.
    replace (nle 0%R (vx (p_pos o))) with false; [reflexivity|]. symmetry. apply nle_false. nra.
  - intros _ Hx. replace (nle 0%R (vx (p_pos o))) with true; [reflexivity|]. symmetry. apply nle_true. exact Hx.
  - destruct (nle 0%R (vx (p_pos o))); [left|right]; reflexivity.
Qed.
Print Assumptions C71_reported_energy_partial.

(** ** C72: the Python interfaces *)
Definition python_row {F} {NF : Num F} (p : Particle F) : list F :=
  nine p (if p_stopped p then nZ 0 else ndiv (p_E p) cEV) (p_pos p).
Theorem C72_python_lists :
  forall {F} {NF : Num F} build fuel ions (Z2 m2 Ec2 Es2 n2 Eb2 : list F) rng n rows incident n',
    compound_bca_list_py build fuel ions Z2 m2 Ec2 Es2 n2 Eb2 rng n = Ok ((rows, incident), n') ->
    exists mat x outs,
      Forall2 (fun i out => exists ion a b, p_incident ion = true /\
         default_incident (py_m1 i) (py_Z1 i) (py_energy i) (py_Ec1 i) (py_Es1 i) x (py_ux i) (py_uy i) (py_uz i) = Ok ion /\
         single_ion_bca build mat (default_options true) fuel ion rng a = Ok (out, b)) ions outs /\
      let ps := filter reported (concat outs) in
      rows = map python_row ps /\ incident = map p_incident ps /\
      length rows = length incident /\ length (filter (fun b => b) incident) = length ions.
Proof.
  intros F NF build fuel ions Z2 m2 Ec2 Es2 n2 Eb2 rng n rows incident n' H. unfold compound_bca_list_py in H.
  do 5 (apply mbind_ok in H; destruct H as (? & ? & _ & H)).
  apply mbind_ok in H. destruct H as (mat & k & _ & H). apply mbind_ok in H. destruct H as (ps & k' & Hl & H).
  rewrite py_collect_spec in H. cbn [app] in H. apply mret_ok in H. destruct H as (H & _).
  assert (Hr : rows = map row9_py (filter reported ps)) by exact (f_equal fst H).
  assert (Hi : incident = map p_incident (filter reported ps)) by exact (f_equal snd H).
  apply py_loop_inv in Hl. destruct Hl as (outs & -> & Hall). exists mat, (start_x (nsum n2)), outs.
  assert (Hall' : Forall2 (fun i out => exists ion a b, p_incident ion = true /\
         default_incident (py_m1 i) (py_Z1 i) (py_energy i) (py_Ec1 i) (py_Es1 i) (start_x (nsum n2)) (py_ux i) (py_uy i) (py_uz i) = Ok ion /\
         single_ion_bca build mat (default_options true) fuel ion rng a = Ok (out, b)) ions outs).
  { eapply Forall2_imp; [|exact Hall]. intros i out (ion & a & b & H1 & H2). exists ion, a, b. split; [eapply default_incident_flag; eauto|]. auto. }
  split; [exact Hall'|]. cbv zeta. split; [exact Hr|]. split; [exact Hi|]. split; [rewrite Hr, Hi, !map_length; reflexivity|].
  rewrite Hi. rewrite (Forall2_len _ _ _ Hall').
  assert (K1 : Forall (fun out => length (filter p_incident out) = 1) outs).
  { clear -Hall'. induction Hall' as [|i out is outs (ion & a & b & H1 & _ & H2) _ IH]; constructor; [|exact IH]. eapply run_one_incident; eauto. }
  rewrite <- (concat_one_each p_incident outs K1).
  generalize (concat outs). intros l. clear. induction l as [|p l IH]; [reflexivity|]. cbn [filter]. unfold reported at 1.
  destruct (p_left p), (p_incident p) eqn:E; cbn [orb map filter]; try rewrite E; cbn [length]; rewrite ?IH; reflexivity.
Qed.
Print Assumptions C72_python_lists.
Theorem C72_layered_python_lists :
  forall {F} {NF : Num F} build fuel ions (Z2 m2 Ec2 Es2 Eb2 : list F) n2 dx rng n rows incident stopped n',
    compound_bca_list_1D_py build fuel ions Z2 m2 Ec2 Es2 Eb2 n2 dx rng n = Ok ((rows, incident, stopped), n') ->
    exists ps, Forall (fun p => reported p = true) ps /\
      rows = map python_row ps /\ incident = map p_incident ps /\ stopped = map p_stopped ps /\
      length (filter (fun b => b) incident) = length ions.
Proof.
  intros F NF build fuel ions Z2 m2 Ec2 Es2 Eb2 n2 dx rng n rows incident stopped n' H. unfold compound_bca_list_1D_py in H.
  do 9 (apply mbind_ok in H; destruct H as (? & ? & _ & H)). apply mbind_ok in H. destruct H as (ps & k' & Hl & H).
  rewrite py_collect_spec in H. cbn [app] in H. apply mret_ok in H. destruct H as (H & _).
  exists (filter reported ps). split; [apply Forall_forall; intros p Hp; apply filter_In in Hp; apply Hp|].
  split; [exact (f_equal (fun t => fst (fst t)) H)|]. assert (Hi : incident = map p_incident (filter reported ps)) by exact (f_equal (fun t => snd (fst t)) H).
  split; [exact Hi|]. split; [exact (f_equal snd H)|]. apply py_loop_inv in Hl. destruct Hl as (outs & -> & Hall).
  rewrite Hi, (Forall2_len _ _ _ Hall).
  assert (K1 : Forall (fun out => length (filter p_incident out) = 1) outs).
  { clear -Hall. induction Hall as [|i out is outs (ion & a & b & H1 & H2) _ IH]; constructor; [|exact IH].
    eapply run_one_incident; [exact H2|]. eapply default_incident_flag; eauto. }
  rewrite <- (concat_one_each p_incident outs K1).
  generalize (concat outs). intros l. clear. induction l as [|p l IH]; [reflexivity|]. cbn [filter]. unfold reported at 1.
  destruct (p_left p), (p_incident p) eqn:E; cbn [orb map filter]; try rewrite E; cbn [length]; rewrite ?IH; reflexivity.
Qed.
Print Assumptions C72_layered_python_lists.
(** reflect_single_ion_py: the returned velocity is zero unless the ion left
    with positive energy out of the surface; then it is its direction times the
    speed of that energy. *)
Theorem C72_reflected_velocity :
  forall {F} {NF : Num F} build fuel (Z1 m1 Ec1 Es1 Z2 m2 Ec2 Es2 Eb2 n2 v1 v2 v3 : F) rng n a b c n',
    reflect_single_ion_py build fuel Z1 m1 Ec1 Es1 Z2 m2 Ec2 Es2 Eb2 n2 v1 v2 v3 rng n = Ok ((a, b, c), n') ->
    exists mat ion o, single_ion_bca build mat (default_options false) fuel ion rng n = Ok ([o], n') /\ p_incident o = true /\
      let speed := nsqrt (ndiv (nmul (nZ 2) (p_E o)) (nmul m1 cAMU)) in
      (ejected o = true /\ (a, b, c) = (nmul (vx (p_dir o)) speed, nmul (vy (p_dir o)) speed, nmul (vz (p_dir o)) speed)) \/
      (ejected o = false /\ (a, b, c) = (nZ 0, nZ 0, nZ 0)).
Proof.
  intros F NF build fuel Z1 m1 Ec1 Es1 Z2 m2 Ec2 Es2 Eb2 n2 v1 v2 v3 rng n a b c n' H. unfold reflect_single_ion_py in H.
  apply mbind_ok in H. destruct H as (uu & k1 & H0 & H). apply mlift_ok in H0. destruct H0 as (_ & ->).
  apply mbind_ok in H. destruct H as ([mat x0] & k2 & Hm & H). apply mlift_ok in Hm. destruct Hm as (_ & ->).
  apply mbind_ok in H. destruct H as (ion & k3 & Hi & H). apply mlift_ok in Hi. destruct Hi as (Hi & ->).
  apply mbind_ok in H. destruct H as (out & k4 & Ho & H).
  apply mbind_ok in H. destruct H as (o & k5 & Hx & H). apply mlift_ok in Hx. destruct Hx as (Hx & ->). apply mret_ok in H. destruct H as (H & ->).
  pose proof (run_no_recoils _ _ _ _ _ _ _ _ _ (eq_refl : o_track_recoils (default_options (F:=F) false) = false) Ho) as (o' & -> & Hid).
  apply idx_ok in Hx. injection Hx as ->. apply default_incident_flag in Hi.
  assert (Hoi : p_incident o = true) by (destruct Hid as (_&_&_&_&_&_&_&He&_); congruence).
  exists mat, ion, o. split; [exact Ho|]. split; [exact Hoi|]. cbv zeta. rewrite Hoi, andb_true_r in H.
  replace (nlt (nZ 0) (p_E o) && nlt (vx (p_dir o)) (nZ 0) && p_left o) with (ejected o) in H
    by (unfold ejected; destruct (p_left o), (nlt (nZ 0) (p_E o)), (nlt (vx (p_dir o)) (nZ 0)); reflexivity).
  destruct (ejected o); [left|right]; split; try reflexivity; exact H.
Qed.
Print Assumptions C72_reflected_velocity.
Definition py_ions : list (PyIon spec_float) :=
  [mkPyIon (nZ 15) (nlit 8 (-1)) (nlit 6 (-1)) (nZ 0) (nZ 2) (nZ 1) (nZ 0) (nZ 4);
   mkPyIon (nlit 5 (-1)) (nlit 8 (-1)) (nlit 6 (-1)) (nZ 0) (nZ 2) (nZ 1) (nZ 0) (nZ 4)].
Example C72_nonvacuous : exists rows incident n',
  @compound_bca_list_py _ series_num None 200 py_ions [nZ 29] [nZ 63] [nZ 1] [nlit 1 (-1)] [nlit 85 (-3)] [nZ 0] (lcg 11) 0 = Ok ((rows, incident), n') /\
  length rows = 2.
Proof.
  assert (H : passes (fun r => Nat.eqb (length (fst (fst r))) 2)
    (@compound_bca_list_py _ series_num None 200 py_ions [nZ 29] [nZ 63] [nZ 1] [nlit 1 (-1)] [nlit 85 (-3)] [nZ 0] (lcg 11) 0) = true)
    by (vm_compute; reflexivity).
  destruct (@compound_bca_list_py _ _ _ _ _ _ _ _ _ _ _ _ _) as [[[rows incident] n']|k|]; [|discriminate|discriminate].
  exists rows, incident, n'. split; [reflexivity|]. apply Nat.eqb_eq. exact H.
Qed.

(** ** C74: normal incidence in binary64 *)
Section C74.
Local Notation sadd := (SFadd prec emax).
Local Notation ssub := (SFsub prec emax).
Local Notation smul := (SFmul prec emax).
Local Notation sdiv := (SFdiv prec emax).
Lemma sub_nan x : ssub x S754_nan = S754_nan. Proof. destruct x as [[]|[]| |]; reflexivity. Qed.
Lemma add_nan_r x : sadd x S754_nan = S754_nan. Proof. destruct x as [[]|[]| |]; reflexivity. Qed.
Lemma add_nan_l x : sadd S754_nan x = S754_nan. Proof. destruct x as [[]|[]| |]; reflexivity. Qed.
Lemma div_nan x : sdiv x S754_nan = S754_nan. Proof. destruct x as [[]|[]| |]; reflexivity. Qed.
Lemma mul_zero x s : smul x (S754_zero s) = S754_nan \/ exists s', smul x (S754_zero s) = S754_zero s'.
Proof. destruct x as [[]|[]| |]; cbn; eauto. Qed.
Lemma zero_pm x y : (x = S754_nan \/ exists s, x = S754_zero s) -> (y = S754_nan \/ exists s, y = S754_zero s) ->
  (ssub x y = S754_nan \/ exists s, ssub x y = S754_zero s) /\ (sadd x y = S754_nan \/ exists s, sadd x y = S754_zero s).
Proof. intros [->|(s & ->)] [->|(s' & ->)]; split; try destruct s, s'; cbn; eauto. Qed.
Lemma div_zero_times x y : (y = S754_nan \/ exists s, y = S754_zero s) -> smul (sdiv x (S754_zero false)) y = S754_nan.
Proof. intros [->|(s & ->)]; destruct x as [[]|[]| |[]]; cbn; reflexivity. Qed.
(** Whatever the library functions are: a direction exactly along +x is turned
    into three NaNs by every deflection, of any angle. *)
Theorem C74_normal_direction_becomes_nan_refuted :
  forall lm sy sz psi phi,
    @rotate_dir _ (NumSF lm) (mkV (sf_lit 1 0) (S754_zero sy) (S754_zero sz)) psi phi = mkV S754_nan S754_nan S754_nan.
Proof.
  intros lm sy sz psi phi. unfold rotate_dir, v_normalize, v_assign, v_magnitude. cbn [vx vy vz nadd nsub nmul ndiv nsqrt ncos nsin NumSF].
  change (@nZ _ (NumSF lm) 1%Z) with (sf_lit 1 0).
  assert (Hsa : SFsqrt prec emax (ssub (sf_lit 1 0) (smul (sf_lit 1 0) (sf_lit 1 0))) = S754_zero false) by reflexivity.
  rewrite Hsa. set (cphi := lm_cos lm phi). set (sphi := lm_sin lm phi). set (spsi := lm_sin lm psi). set (cpsi := lm_cos lm psi).
  assert (Hy : ssub (smul cpsi (S754_zero sy)) (smul (sdiv spsi (S754_zero false))
      (ssub (smul (smul cphi (sf_lit 1 0)) (S754_zero sy)) (smul sphi (S754_zero sz)))) = S754_nan).
  { rewrite div_zero_times; [apply sub_nan|]. apply zero_pm; apply mul_zero. }
  assert (Hz : ssub (smul cpsi (S754_zero sz)) (smul (sdiv spsi (S754_zero false))
      (sadd (smul (smul cphi (sf_lit 1 0)) (S754_zero sz)) (smul sphi (S754_zero sy)))) = S754_nan).
  { rewrite div_zero_times; [apply sub_nan|]. apply zero_pm; apply mul_zero. }
  rewrite Hy, Hz. change (smul S754_nan S754_nan) with S754_nan. rewrite !add_nan_r.
  change (SFsqrt prec emax S754_nan) with S754_nan. rewrite !div_nan. reflexivity.
Qed.
Print Assumptions C74_normal_direction_becomes_nan_refuted.
End C74.
(** Helium hitting copper with velocity (20000, 0, 0) m/s: the only row has a
    NaN position and direction. *)
Theorem C74_normal_incidence_run_refuted : exists Z m E n',
  @compound_bca_list_c _ series_num None 60 [mkV (nlit 2 4) (nZ 0) (nZ 0)] (nZ 2) (nZ 4) (nZ 1) (nZ 0) [nZ 29] [nlit 6354 (-2)] [nlit 85 (-3)]
    [nZ 1] [nZ 3] [nZ 0] (lcg 11) 0 = Ok ([[Z; m; E; S754_nan; S754_nan; S754_nan; S754_nan; S754_nan; S754_nan]], n').
Proof. do 4 eexists. vm_compute. reflexivity. Qed.
Print Assumptions C74_normal_incidence_run_refuted.
(** In exact arithmetic, any velocity not along the x axis gives a unit
    direction off the axis, and the kinetic energy of that velocity. *)
Theorem C74_oblique_velocity_partial :
  forall (m1 Z1 Ec1 Es1 x w : R) tag tracked v, (vy v * vy v + vz v * vz v > 0)%R ->
    let ion := velocity_ion m1 Z1 Ec1 Es1 x w tag tracked v in
    is_unit (p_dir ion) /\ off_axis (p_dir ion) /\ (p_E ion = 1 / 2 * (m1 * cAMU) * vdot v v)%R /\
    v = vscale (sqrt (vdot v v)) (p_dir ion).
Proof.
  intros m1 Z1 Ec1 Es1 x w tag tracked [v1 v2 v3] H. cbn [vx vy vz] in H. unfold velocity_ion, literal_incident. cbv zeta.
  cbn [p_dir p_E]. unfold is_unit, off_axis, vdot, vscale. cbn [vx vy vz]. toR.
  set (q := (v1 * v1 + v2 * v2 + v3 * v3)%R). assert (Hq : (0 < q)%R) by (unfold q; nra).
  set (s := sqrt q). assert (Hs : (0 < s)%R) by (apply sqrt_lt_R0; exact Hq). assert (Hss : (s * s = q)%R) by (apply sqrt_sqrt; lra).
  assert (E1 : (v1 / s * s = v1)%R) by (field; lra). assert (E2 : (v2 / s * s = v2)%R) by (field; lra). assert (E3 : (v3 / s * s = v3)%R) by (field; lra).
  set (a := (v1 / s)%R) in *. set (b := (v2 / s)%R) in *. set (c := (v3 / s)%R) in *.
  assert (Hu : (a * a + b * b + c * c = 1)%R).
  { apply (Rmult_eq_reg_r (s * s)); [|nra]. replace ((a * a + b * b + c * c) * (s * s))%R with ((a * s) * (a * s) + (b * s) * (b * s) + (c * s) * (c * s))%R by ring.
    rewrite E1, E2, E3, Hss. unfold q. ring. }
  split; [exact Hu|]. split.
  - assert (Hbc : (0 < b * b + c * c)%R).
    { apply Rnot_le_lt. intros Hle. assert (b = 0)%R by nra. assert (c = 0)%R by nra. assert (v2 = 0)%R by nra. assert (v3 = 0)%R by nra. nra. }
    unfold Rabs. destruct (Rcase_abs a); nra.
  - split; [|f_equal; rewrite Rmult_comm; symmetry; assumption].
    change (@nlit R NumR) with Rlit. replace (Rlit 5 (-1)) with (1 / 2)%R by (unfold Rlit; simpl; lra).
    rewrite <- Hss. ring.
Qed.
Print Assumptions C74_oblique_velocity_partial.
Example C74_oblique_exists : (vy (mkV 3 4 0) * vy (mkV 3 4 0) + vz (mkV 3 4 0) * vz (mkV 3 4 0) > 0)%R.
Proof. cbn. lra. Qed.

(** ** C75: the flight after a surface crossing *)
(** Two consecutive steps: the second moves the ion along the direction it had
    before the surface test of the first, not along its current direction. *)
Theorem C75_flight_after_crossing_refuted :
  exists p0 p1 n1 p2 n2, active p0 /\
    bca_step None r_mat r_options p0 [] zero_rng 0%nat = Ok ((p1, []), n1) /\
    bca_step None r_mat r_options p1 [] zero_rng 0%nat = Ok ((p2, []), n2) /\ active p1 /\
    (p_dir p1 = mkV (6 / 10) (8 / 10) 0 /\ vminus (p_pos p2) (p_pos p1) = mkV (-6 / 10) (8 / 10) 0 /\
     forall s, vminus (p_pos p2) (p_pos p1) <> vscale s (p_dir p1))%R.
Proof.
  destruct r_reflection as (p1 & n1 & p2 & n2 & H1 & Hb & Hd & Hp & H2 & Hp2). exists r_refl, p1, n1, p2, n2.
  assert (E : vminus (p_pos p2) (p_pos p1) = mkV (-6 / 10)%R (8 / 10)%R 0%R).
  { rewrite Hp2, Hp. unfold vminus. cbn [vx vy vz]. f_equal; lra. }
  split; [split; reflexivity|]. split; [exact H1|]. split; [exact H2|]. split.
  - pose proof (step_dir_old _ _ _ _ _ _ _ _ _ _ (conj eq_refl eq_refl : active r_refl) H1) as (q & Haq & _ & _ & _ & Hbq & _ & Hbd).
    destruct (boundary_cases _ _ _ Haq Hbd) as [(Ha & _)|(_ & _ & _ & Hx & _)]; [exact Ha|].
    exfalso. rewrite Hb in Hx. rewrite Hbq in Hx. discriminate.
  - split; [exact Hd|]. split; [exact E|]. intros s. rewrite E, Hd. unfold vscale. cbn [vx vy vz]. intros Hs.
    assert (-6 / 10 = s * (6 / 10))%R by congruence. assert (8 / 10 = s * (8 / 10))%R by congruence. lra.
Qed.
Print Assumptions C75_flight_after_crossing_refuted.
(** In every pair of consecutive steps the flight of the second is along the
    direction [d] before the surface test; [d] is the current direction
    whenever that test saw no crossing. *)
Theorem C75_flight_direction_partial :
  forall build (mat : Material R) options p ps rng n p1 ps1 n1 ps' m p2 ps2 n2,
    active p -> bca_step build mat options p ps rng n = Ok ((p1, ps1), n1) -> active p1 ->
    bca_step build mat options p1 ps' rng m = Ok ((p2, ps2), n2) ->
    exists q s, boundary_condition_planar mat q = Ok p1 /\ p_pos q = p_pos p1 /\
      p_pos p2 = vplus (p_pos p1) (vscale s (p_dir q)) /\
      (in_barrier mat (p_pos p1) = in_barrier mat (p_pos p) -> p_dir q = p_dir p1).
Proof.
  intros build mat options p ps rng n p1 ps1 n1 ps' m p2 ps2 n2 Ha H1 Ha1 H2.
  pose proof (step_dir_old _ _ _ _ _ _ _ _ _ _ Ha H1) as (q & _ & Hdo & Hp & _ & _ & _ & Hb).
  destruct (step_displacement _ _ _ _ _ _ _ _ _ _ Ha1 H2) as (p0 & bcgs & k & bcg0 & _ & _ & Hmove & _).
  exists q, (bcg_mfp bcg0 + p_asymptotic_deflection p1 - p_asymptotic_deflection p2)%R. split; [exact Hb|]. split; [exact Hp|]. split; [rewrite <- Hdo; exact Hmove|].
  intros Hin. rewrite <- Hdo. exact (step_dir_old_uncrossed _ _ _ _ _ _ _ _ _ _ Ha H1 (or_introl Hin)).
Qed.
Print Assumptions C75_flight_direction_partial.
