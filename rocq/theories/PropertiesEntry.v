(** * PropertiesEntry.v - C102: entry points simulate the ions and targets their arguments describe *)
From Coq Require Import ZArith List Bool Lia Reals Lra Permutation Floats.SpecFloat.
From Verif Require Import Num NumSF NumR ModelTypes ModelConsts ModelParticle ModelGeometry ModelMaterial ModelBca ModelInput ModelLib
  Spec SpecR SpecLib SpecEntry ProofsBase ProofsBca ProofsSampling ProofsInteractions ProofsFrame ProofsLib ProofsLibR ProofsEntry PropertiesLib.
Import ListNotations.
Open Scope R_scope.

(** ** velocities in metres per second, densities per cubic angstrom *)
Theorem C102_compound_bca_list_c :
  forall build fuel velocities (Z1 m1 Ec1 Es1 : R) Z2 m2 n2 Ec2 Es2 Eb2 rng n rows n',
    Forall (fun v => 0 < vdot v v) velocities ->
    compound_bca_list_c build fuel velocities Z1 m1 Ec1 Es1 Z2 m2 n2 Ec2 Es2 Eb2 rng n = Ok (rows, n') ->
    exists mat x runs,
      requested_species SBM_AVERAGE Z2 m2 Ec2 Es2 Eb2 mat /\ fills_half_space cANGSTROM n2 mat /\ (0 < Rsum n2 -> x < 0) /\
      runs_of (moving_with Z1 m1 Ec1 Es1 (mkV x 0 0)) build mat (default_options true) fuel rng velocities n runs n' /\
      rows = map (fun p => nine p (p_E p / cEV) (p_pos p)) (filter reported (concat runs)).
Proof.
  intros build fuel vs Z1 m1 Ec1 Es1 Z2 m2 n2 Ec2 Es2 Eb2 rng n rows n' Hv H. unfold compound_bca_list_c in H.
  apply mbind_ok in H. destruct H as (mat & k & Hm & H). apply mlift_ok in Hm. destruct Hm as (Hm & ->).
  apply mbind_ok in H. destruct H as (ps & k' & Hr & H). apply mret_ok in H. destruct H as (-> & ->).
  eapply requested_0d in Hm; [|reflexivity|reflexivity]. destruct Hm as (Hs & Hf).
  apply run_all_runs in Hr. destruct Hr as (outs & -> & Hr).
  exists mat, (start_x (nsum n2)), outs. repeat (split; [assumption|]). split; [apply start_x_neg|]. split; [|reflexivity].
  eapply runs_weaken; [|exact Hr]. intros v p Hin ->. apply velocity_ion_moving. rewrite Forall_forall in Hv. apply Hv. exact Hin.
Qed.
Print Assumptions C102_compound_bca_list_c.
Theorem C102_simple_bca_list_c :
  forall build fuel velocities (Z1 m1 Ec1 Es1 Z2 m2 n2 Ec2 Es2 Eb2 : R) rng n rows n',
    Forall (fun v => 0 < vdot v v) velocities ->
    simple_bca_list_c build fuel velocities Z1 m1 Ec1 Es1 Z2 m2 n2 Ec2 Es2 Eb2 rng n = Ok (rows, n') ->
    exists mat x runs,
      requested_species SBM_AVERAGE [Z2] [m2] [Ec2] [Es2] [Eb2] mat /\ fills_half_space cANGSTROM [n2] mat /\ (0 < n2 -> x < 0) /\
      runs_of (moving_with Z1 m1 Ec1 Es1 (mkV x 0 0)) build mat (default_options true) fuel rng velocities n runs n' /\
      rows = map (fun p => nine p (p_E p / cEV) (p_pos p)) (filter reported (concat runs)).
Proof.
  intros build fuel vs Z1 m1 Ec1 Es1 Z2 m2 n2 Ec2 Es2 Eb2 rng n rows n' Hv H. unfold simple_bca_list_c in H.
  apply mbind_ok in H. destruct H as (mat & k & Hm & H). apply mlift_ok in Hm. destruct Hm as (Hm & ->).
  apply mbind_ok in H. destruct H as (ps & k' & Hr & H). apply mret_ok in H. destruct H as (-> & ->).
  eapply requested_0d in Hm; [|reflexivity|reflexivity]. destruct Hm as (Hs & Hf).
  apply run_all_runs in Hr. destruct Hr as (outs & -> & Hr).
  exists mat, (start_x n2), outs. repeat (split; [assumption|]). split.
  { intros Hn. pose proof (start_x_neg [n2]) as E. rewrite nsum_R in E. unfold Rsum in E. cbn [fold_right] in E. rewrite Rplus_0_r in E. apply E. exact Hn. }
  split; [|reflexivity].
  eapply runs_weaken; [|exact Hr]. intros v p Hin ->. apply velocity_ion_moving. rewrite Forall_forall in Hv. apply Hv. exact Hin.
Qed.
Print Assumptions C102_simple_bca_list_c.
(** each request is a velocity, a position, a weight and a tag *)
Theorem C102_compound_tagged_bca_list_c :
  forall build fuel (inp : InputTagged R) rng n o n',
    Forall (fun v => 0 < vdot v v) (it_velocities inp) ->
    compound_tagged_bca_list_c build fuel inp rng n = Ok (o, n') ->
    let requests := combine (it_velocities inp) (combine (it_positions inp) (combine (it_weights inp) (it_tags inp))) in
    length requests = length (it_velocities inp) /\
    exists mat x runs,
      requested_species SBM_AVERAGE (it_Z2 inp) (it_m2 inp) (it_Ec2 inp) (it_Es2 inp) (it_Eb2 inp) mat /\
      fills_half_space cANGSTROM (it_n2 inp) mat /\ (0 < Rsum (it_n2 inp) -> x < 0) /\
      runs_of (fun '(v, (pos, (w, tag))) p => moving_with (it_Z1 inp) (it_m1 inp) (it_Ec1 inp) (it_Es1 inp) (mkV x 0 0) v p /\
                 p_weight p = w /\ p_tag p = tag /\ p_tracked_vector p = pos)
        build mat (default_options true) fuel rng requests n runs n' /\
      ot_particles o = map (fun p => nine p (p_E p / cEV) (p_tracked_vector p)) (filter reported (concat runs)).
Proof.
  intros build fuel inp rng n o n' Hv H requests. unfold compound_tagged_bca_list_c in H.
  apply mbind_ok in H. destruct H as (mat & k & Hm & H). apply mlift_ok in Hm. destruct Hm as (Hm & ->).
  apply mbind_ok in H. destruct H as (ps & k' & Hr & H). rewrite tagged_collect_spec in H. cbn [app] in H.
  apply mret_ok in H. destruct H as (-> & ->).
  eapply requested_0d in Hm; [|reflexivity|reflexivity]. destruct Hm as (Hs & Hf).
  apply tagged_loop_runs in Hr. destruct Hr as (outs & -> & Hr & Hlen). split; [exact Hlen|].
  exists mat, (start_x (nsum (it_n2 inp))), outs. repeat (split; [assumption|]). split; [apply start_x_neg|]. split; [|reflexivity].
  eapply runs_weaken; [|exact Hr]. intros (v & pos & w & tag) p Hin ->. cbn [fst snd]. split; [|repeat split].
  apply velocity_ion_moving. rewrite Forall_forall in Hv. apply Hv. apply in_combine_l in Hin. exact Hin.
Qed.
Print Assumptions C102_compound_tagged_bca_list_c.

(** ** energies in eV and directions; the direction is taken as it is *)
Theorem C102_compound_bca_list_fortran :
  forall build fuel recoils (ions : list (PyIon R)) Z2 m2 Ec2 Es2 Eb2 n2 rng n count rows n',
    compound_bca_list_fortran build fuel recoils ions Z2 m2 Ec2 Es2 Eb2 n2 rng n = Ok ((count, rows), n') ->
    exists mat x runs,
      requested_species SBM_INDIVIDUAL Z2 m2 Ec2 Es2 Eb2 mat /\ fills_half_space cANGSTROM n2 mat /\ (0 < Rsum n2 -> x < 0) /\
      runs_of (fun i => requested_ion (py_Z1 i) (py_m1 i) (py_Ec1 i) (py_Es1 i) (py_energy i * cEV) (mkV x 0 0)
                          (mkV (py_ux i) (py_uy i) (py_uz i)))
        build mat (default_options recoils) fuel rng ions n runs n' /\
      rows = map (fun p => [p_Z p; p_m p / cAMU; p_E p / cEV; vx (p_dir p); vy (p_dir p); vz (p_dir p)]) (filter reported (concat runs)).
Proof.
  intros build fuel recoils ions Z2 m2 Ec2 Es2 Eb2 n2 rng n count rows n' H. unfold compound_bca_list_fortran in H.
  apply mbind_ok in H. destruct H as (mat & k & Hm & H). apply mlift_ok in Hm. destruct Hm as (Hm & ->).
  apply mbind_ok in H. destruct H as (ps & k' & Hr & H). apply mret_ok in H. destruct H as (H & ->).
  pose proof (f_equal snd H) as Hrows. cbn [snd] in Hrows. subst rows.
  eapply requested_0d in Hm; [|reflexivity|reflexivity]. destruct Hm as (Hs & Hf).
  apply run_all_runs in Hr. destruct Hr as (outs & -> & Hr).
  exists mat, (start_x (nsum n2)), outs. repeat (split; [assumption|]). split; [apply start_x_neg|]. split; [|reflexivity].
  eapply runs_weaken; [|exact Hr]. intros i p Hin ->. unfold fortran_ion. rewrite !nZ_R. apply literal_requested.
Qed.
Print Assumptions C102_compound_bca_list_fortran.
Definition asked (x : R) (i : PyIon R) : Particle R -> Prop :=
  flying_along (py_Z1 i) (py_m1 i) (py_Ec1 i) (py_Es1 i) (py_energy i) (mkV x 0 0) (mkV (py_ux i) (py_uy i) (py_uz i)).
Definition has_direction (i : PyIon R) : Prop := 0 < py_ux i * py_ux i + py_uy i * py_uy i + py_uz i * py_uz i.
Theorem C102_compound_bca_list_py :
  forall build fuel (ions : list (PyIon R)) Z2 m2 Ec2 Es2 n2 Eb2 rng n rows incident n',
    Forall has_direction ions ->
    compound_bca_list_py build fuel ions Z2 m2 Ec2 Es2 n2 Eb2 rng n = Ok ((rows, incident), n') ->
    exists mat x runs,
      requested_species SBM_INDIVIDUAL Z2 m2 Ec2 Es2 Eb2 mat /\ fills_half_space cANGSTROM n2 mat /\ (0 < Rsum n2 -> x < 0) /\
      runs_of (asked x) build mat (default_options true) fuel rng ions n runs n' /\
      rows = map (fun p => nine p (if p_stopped p then 0 else p_E p / cEV) (p_pos p)) (filter reported (concat runs)) /\
      length m2 = length Z2 /\ length Ec2 = length Z2 /\ length Es2 = length Z2 /\ length Eb2 = length Z2 /\ length n2 = length Z2.
Proof.
  intros build fuel ions Z2 m2 Ec2 Es2 n2 Eb2 rng n rows incident n' Hd H. unfold compound_bca_list_py in H.
  do 5 (apply mbind_ok in H; let L := fresh "L" in destruct H as (? & ? & L & H); apply mlift_ok in L; destruct L as (L & ->); apply rassert_ok, Nat.eqb_eq in L).
  apply mbind_ok in H. destruct H as (mat & k & Hm & H). apply mlift_ok in Hm. destruct Hm as (Hm & ->).
  apply mbind_ok in H. destruct H as (ps & k' & Hr & H). rewrite py_collect_spec in H. cbn [app] in H. apply mret_ok in H. destruct H as (H & ->).
  pose proof (f_equal fst H) as Hrows. cbn [fst] in Hrows. subst rows.
  eapply requested_0d in Hm; [|reflexivity|reflexivity]. destruct Hm as (Hs & Hf).
  apply py_loop_runs in Hr. destruct Hr as (outs & -> & Hr).
  exists mat, (start_x (nsum n2)), outs. repeat (split; [assumption|]). split; [apply start_x_neg|]. split; [|split].
  - eapply runs_weaken; [|exact Hr]. intros i p Hin Hp. cbv beta in Hp. apply default_incident_flying in Hp; [exact Hp|].
    rewrite Forall_forall in Hd. exact (Hd i Hin).
  - apply map_ext. intros p. unfold row9_py, nine. rewrite nZ_R. reflexivity.
  - repeat split; assumption.
Qed.
Print Assumptions C102_compound_bca_list_py.
Theorem C102_compound_bca_list_1D_py :
  forall build fuel (ions : list (PyIon R)) Z2 m2 Ec2 Es2 Eb2 n2 dx rng n rows incident stopped n',
    Forall has_direction ions ->
    compound_bca_list_1D_py build fuel ions Z2 m2 Ec2 Es2 Eb2 n2 dx rng n = Ok ((rows, incident, stopped), n') ->
    exists mat x runs,
      requested_species SBM_INDIVIDUAL Z2 m2 Ec2 Es2 Eb2 mat /\ fills_layers cANGSTROM dx n2 mat /\ (0 < Rsum (nth 0 n2 []) -> x < 0) /\
      runs_of (asked x) build mat (default_options true) fuel rng ions n runs n' /\
      rows = map (fun p => nine p (if p_stopped p then 0 else p_E p / cEV) (p_pos p)) (filter reported (concat runs)).
Proof.
  intros build fuel ions Z2 m2 Ec2 Es2 Eb2 n2 dx rng n rows incident stopped n' Hd H. unfold compound_bca_list_1D_py in H.
  do 7 (apply mbind_ok in H; let L := fresh "L" in destruct H as (? & ? & L & H); apply mlift_ok in L; destruct L as (_ & ->)).
  apply mbind_ok in H. destruct H as (g & k & Hg & H). apply mlift_ok in Hg. destruct Hg as (Hg & ->).
  apply mbind_ok in H. destruct H as (mat & k & Hm & H). apply mlift_ok in Hm. destruct Hm as (Hm & ->).
  apply mbind_ok in H. destruct H as (ps & k' & Hr & H). rewrite py_collect_spec in H. cbn [app] in H. apply mret_ok in H. destruct H as (H & ->).
  pose proof (f_equal (fun t => fst (fst t)) H) as Hrows. cbn [fst] in Hrows. subst rows.
  eapply requested_1d in Hm; [|exact Hg]. destruct Hm as (Hs & Hf & Hx).
  apply py_loop_runs in Hr. destruct Hr as (outs & -> & Hr).
  eexists mat, _, outs. repeat (split; [assumption|]). split; [exact Hx|]. split.
  - eapply runs_weaken; [|exact Hr]. intros i p Hin Hp. cbv beta in Hp. apply default_incident_flying in Hp; [exact Hp|].
    rewrite Forall_forall in Hd. exact (Hd i Hin).
  - apply map_ext. intros p. unfold row9_py, nine. rewrite nZ_R. reflexivity.
Qed.
Print Assumptions C102_compound_bca_list_1D_py.
Theorem C102_simple_bca :
  forall build fuel (x y z ux uy uz E1 Z1 m1 Ec1 Es1 Z2 m2 Ec2 Es2 n2 Eb2 : R) rng n rows n',
    simple_bca build fuel x y z ux uy uz E1 Z1 m1 Ec1 Es1 Z2 m2 Ec2 Es2 n2 Eb2 rng n = Ok (rows, n') ->
    0 < E1 /\ 0 < Ec1 /\ 0 < Ec2 /\
    exists mat ion out,
      requested_species SBM_AVERAGE [Z2] [m2] [Ec2] [Es2] [Eb2] mat /\ fills_half_space cANGSTROM [n2] mat /\
      requested_ion Z1 m1 Ec1 Es1 (E1 * cEV) (mkV x y z) (mkV ux uy uz) ion /\
      single_ion_bca build mat (default_options true) fuel ion rng n = Ok (out, n') /\
      rows = map (fun p => nine p (p_E p / cEV) (p_pos p)) (filter reported out).
Proof.
  intros build fuel x y z ux uy uz E1 Z1 m1 Ec1 Es1 Z2 m2 Ec2 Es2 n2 Eb2 rng n rows n' H. unfold simple_bca in H.
  do 3 (apply mbind_ok in H; let L := fresh "L" in destruct H as (? & ? & L & H); apply mlift_ok in L; destruct L as (L & ->); apply rassert_ok, nlt_true in L; rewrite nZ_R in L).
  apply mbind_ok in H. destruct H as (mat & k & Hm & H). apply mlift_ok in Hm. destruct Hm as (Hm & ->).
  apply mbind_ok in H. destruct H as (out & k' & Hr & H). apply mret_ok in H. destruct H as (-> & ->).
  repeat (split; [assumption|]). change [nZ 0] with (repeat (@nZ R NumR 0%Z) 1) in Hm.
  eapply requested_0d in Hm; [|reflexivity|reflexivity]. destruct Hm as (Hs & Hf).
  eexists mat, _, out. repeat (split; [assumption|]). split; [apply literal_requested|]. split; [exact Hr|reflexivity].
Qed.
Print Assumptions C102_simple_bca.
Theorem C102_reflect_single_ion_c :
  forall build fuel (ux uy uz E1 Z1 m1 Ec1 Es1 : R) Z2 m2 Ec2 Es2 Eb2 n2 rng n a b c e n',
    reflect_single_ion_c build fuel ux uy uz E1 Z1 m1 Ec1 Es1 Z2 m2 Ec2 Es2 Eb2 n2 rng n = Ok ((a, b, c, e), n') ->
    0 < E1 /\
    exists mat x ion o,
      requested_species SBM_AVERAGE Z2 m2 Ec2 Es2 Eb2 mat /\ fills_half_space cANGSTROM n2 mat /\ (0 < Rsum n2 -> x < 0) /\
      requested_ion Z1 m1 Ec1 Es1 (E1 * cEV) (mkV x 0 0) (mkV ux uy uz) ion /\
      single_ion_bca build mat (default_options false) fuel ion rng n = Ok ([o], n') /\
      mkV a b c = p_dir o /\ (0 <= vx (p_pos o) -> e = 0) /\ (vx (p_pos o) < 0 -> e = p_E o / cEV).
Proof.
  intros build fuel ux uy uz E1 Z1 m1 Ec1 Es1 Z2 m2 Ec2 Es2 Eb2 n2 rng n a b c e n' H. unfold reflect_single_ion_c in H.
  apply mbind_ok in H; destruct H as (? & ? & L & H); apply mlift_ok in L; destruct L as (L & ->); apply rassert_ok, nlt_true in L; rewrite nZ_R in L.
  apply mbind_ok in H. destruct H as (mat & k & Hm & H). apply mlift_ok in Hm. destruct Hm as (Hm & ->).
  apply mbind_ok in H. destruct H as (out & k' & Hr & H). apply mbind_ok in H. destruct H as (o & k5 & Hx & H).
  apply mlift_ok in Hx. destruct Hx as (Hx & ->). apply mret_ok in H. destruct H as (H & ->).
  split; [assumption|]. eapply requested_0d in Hm; [|reflexivity|reflexivity]. destruct Hm as (Hs & Hf).
  pose proof (run_no_recoils _ _ _ _ _ _ _ _ _ (eq_refl : o_track_recoils (default_options (F:=R) false) = false) Hr) as (o' & -> & _).
  apply idx_ok in Hx. injection Hx as ->.
  eexists mat, (start_x (nsum n2)), _, o. repeat (split; [assumption|]). split; [apply start_x_neg|].
  split; [|split; [exact Hr|]].
  - rewrite !nZ_R. apply literal_requested.
  - pose proof (f_equal (fun t => fst (fst (fst t))) H) as Ea. pose proof (f_equal (fun t => snd (fst (fst t))) H) as Eb.
    pose proof (f_equal (fun t => snd (fst t)) H) as Ec. pose proof (f_equal snd H) as Ee. cbn [fst snd] in Ea, Eb, Ec, Ee. subst a b c e.
    split; [destruct (p_dir o); reflexivity|].
    destruct (nle (nZ 0) (vx (p_pos o))) eqn:Hc; [apply nle_true in Hc|apply nle_false in Hc]; rewrite nZ_R in Hc; split; intros Hx'; try lra.
    + apply nZ_R.
    + reflexivity.
Qed.
Print Assumptions C102_reflect_single_ion_c.
(** velocities in and out, densities per cubic metre *)
Theorem C102_reflect_single_ion_py :
  forall build fuel (Z1 m1 Ec1 Es1 Z2 m2 Ec2 Es2 Eb2 n2 v1 v2 v3 : R) rng n a b c n',
    reflect_single_ion_py build fuel Z1 m1 Ec1 Es1 Z2 m2 Ec2 Es2 Eb2 n2 v1 v2 v3 rng n = Ok ((a, b, c), n') ->
    0 < v1 /\
    exists mat x ion o,
      requested_species SBM_AVERAGE [Z2] [m2] [Ec2] [Es2] [Eb2] mat /\ fills_half_space 1 [n2] mat /\ (0 < n2 -> x < 0) /\
      moving_with Z1 m1 Ec1 Es1 (mkV x 0 0) (mkV v1 v2 v3) ion /\
      single_ion_bca build mat (default_options false) fuel ion rng n = Ok ([o], n') /\
      (ejected_ion o = true -> mkV a b c = vscale (sqrt (2 * p_E o / (m1 * cAMU))) (p_dir o)) /\
      (ejected_ion o = false -> mkV a b c = mkV 0 0 0).
Proof.
  intros build fuel Z1 m1 Ec1 Es1 Z2 m2 Ec2 Es2 Eb2 n2 v1 v2 v3 rng n a b c n' H. unfold reflect_single_ion_py in H.
  apply mbind_ok in H. destruct H as (uu & k1 & L & H). apply mlift_ok in L. destruct L as (L & ->). apply rassert_ok, nlt_true in L. rewrite nZ_R in L.
  split; [exact L|].
  apply mbind_ok in H. destruct H as ([mat x] & k2 & Hm & H). apply mlift_ok in Hm. destruct Hm as (Hm & ->).
  apply mbind_ok in H. destruct H as (ion & k3 & Hi & H). apply mlift_ok in Hi. destruct Hi as (Hi & ->).
  apply mbind_ok in H. destruct H as (out & k4 & Ho & H).
  apply mbind_ok in H. destruct H as (o & k5 & Hx & H). apply mlift_ok in Hx. destruct Hx as (Hx & ->). apply mret_ok in H. destruct H as (H & ->).
  pose proof (run_no_recoils _ _ _ _ _ _ _ _ _ (eq_refl : o_track_recoils (default_options (F:=R) false) = false) Ho) as (o' & -> & Hid).
  apply idx_ok in Hx. injection Hx as ->. apply requested_yield_target in Hm. destruct Hm as (Hs & Hf & Hxn).
  exists mat, x, ion, o. split; [exact Hs|]. split; [exact Hf|].
  split; [intros Hn; apply Hxn; unfold Rsum; cbn [fold_right]; lra|].
  assert (P2 : forall t, npowf t (nZ 2) = t * t).
  { intros t. apply Rpowf_2. }
  rewrite !P2 in Hi. set (q := (v1 * v1 +! v2 * v2 +! v3 * v3)%num) in Hi.
  assert (Eq : q = vdot (mkV v1 v2 v3) (mkV v1 v2 v3)) by reflexivity. clearbody q.
  assert (Hq : 0 < q) by (rewrite Eq; unfold vdot; cbn [vx vy vz]; nra).
  assert (Hsq : 0 < sqrt q) by (apply sqrt_lt_R0; exact Hq). assert (Hss : sqrt q * sqrt q = q) by (apply sqrt_sqrt; lra).
  split; [|split; [exact Ho|]].
  - change (nsqrt q) with (sqrt q) in Hi. toR_in Hi.
    assert (Hd : vdot (mkV (v1 / sqrt q) (v2 / sqrt q) (v3 / sqrt q)) (mkV (v1 / sqrt q) (v2 / sqrt q) (v3 / sqrt q)) = 1).
    { rewrite Eq in *. apply (normalised (mkV v1 v2 v3)). exact Hq. }
    apply default_incident_flying in Hi; [|rewrite Hd; lra]. destruct Hi as (u & Hri & Hu & Heq). rewrite Hd, sqrt_1 in Heq.
    exists u. split; [|split; [exact Hu|]].
    + replace (1 / 2 * (m1 * cAMU) * vdot (mkV v1 v2 v3) (mkV v1 v2 v3)) with (@nlit R NumR 5 (-1) * m1 * cAMU * q / cEV * cEV); [exact Hri|].
      rewrite Eq. change (@nlit R NumR) with Rlit. replace (Rlit 5 (-1)) with (1 / 2) by (unfold Rlit; simpl; lra).
      field. change ((cEV : R) <> 0). pose proof cEV_pos. lra.
    + rewrite <- Eq. destruct u as [p r s]. unfold vscale in *. cbn [vx vy vz] in *.
      assert (v1 / sqrt q = 1 * p) by congruence. assert (v2 / sqrt q = 1 * r) by congruence. assert (v3 / sqrt q = 1 * s) by congruence.
      f_equal; rewrite <- (Rmult_1_l p) + rewrite <- (Rmult_1_l r) + rewrite <- (Rmult_1_l s); try rewrite <- H0; try rewrite <- H1; try rewrite <- H2; field; lra.
  - replace (nlt (nZ 0) (p_E o) && nlt (vx (p_dir o)) (nZ 0) && p_left o && p_incident o) with (ejected_ion o) in H
      by (unfold ejected_ion, ejected; destruct (p_left o), (nlt (nZ 0) (p_E o)), (nlt (vx (p_dir o)) (nZ 0)); reflexivity).
    split; intros He; rewrite He in H.
    + pose proof (f_equal (fun t => fst (fst t)) H) as Ea. pose proof (f_equal (fun t => snd (fst t)) H) as Eb. pose proof (f_equal snd H) as Ec.
      cbn [fst snd] in Ea, Eb, Ec. toR_in Ea. toR_in Eb. toR_in Ec. unfold vscale. rewrite Ea, Eb, Ec. f_equal; apply Rmult_comm.
    + rewrite !nZ_R in H. f_equal; [exact (f_equal (fun t => fst (fst t)) H)|exact (f_equal (fun t => snd (fst t)) H)|exact (f_equal snd H)].
Qed.
Print Assumptions C102_reflect_single_ion_py.

(** ** yields: one ion per sample, [angle] degrees from the normal to within 3e-6 *)
Definition sample_of (Z1 m1 Ec1 Es1 energy angle x : R) (ion : Particle R) : Prop :=
  exists u, requested_ion Z1 m1 Ec1 Es1 (energy * cEV) (mkV x 0 0) u ion /\ is_unit u /\ near (3 / 1000000) u (at_angle angle).
Lemma sample_ion Z1 m1 Ec1 Es1 energy angle x ion :
  default_incident m1 Z1 energy Ec1 Es1 x (vx (incidence angle)) (vy (incidence angle)) (vz (incidence angle)) = Ok ion ->
  sample_of Z1 m1 Ec1 Es1 energy angle x ion.
Proof.
  intros H. destruct (incidence_near angle) as (Hpos & Hnear). apply default_incident_flying in H; [|exact Hpos].
  destruct H as (u & Hr & Hu & He). exists u. split; [exact Hr|]. split; [exact Hu|]. apply Hnear; assumption.
Qed.
Theorem C102_sputtering_yield :
  forall build fuel (Z1 m1 Ec1 Es1 Z2 m2 Ec2 Es2 Eb2 n2 energy angle : R) rngs result,
    sputtering_yield build fuel Z1 m1 Ec1 Es1 Z2 m2 Ec2 Es2 Eb2 n2 energy angle rngs result ->
    Rabs angle <= 90 /\
    exists mat x outs,
      requested_species SBM_AVERAGE [Z2] [m2] [Ec2] [Es2] [Eb2] mat /\ fills_half_space 1 [n2] mat /\ (0 < n2 -> x < 0) /\
      Forall2 (fun rng out => exists ion k, sample_of Z1 m1 Ec1 Es1 energy angle x ion /\
        single_ion_bca build mat (default_options true) fuel ion rng 0%nat = Ok (out, k)) rngs outs /\
      result = INR (length (filter ejected_recoil (concat outs))) / INR (length rngs).
Proof.
  intros build fuel Z1 m1 Ec1 Es1 Z2 m2 Ec2 Es2 Eb2 n2 energy angle rngs result H. split.
  - destruct H as (? & ? & ? & ? & H & _). apply rassert_ok, nle_true in H. toR_in H. exact H.
  - apply C65_yield_any_schedule in H. destruct H as (mat & x & outs & Ht & Hs & ->). apply requested_yield_target in Ht. destruct Ht as (H1 & H2 & H3).
    exists mat, x, outs. split; [exact H1|]. split; [exact H2|]. split; [intros Hn; apply H3; unfold Rsum; cbn [fold_right]; lra|].
    split; [|rewrite !nnat_R; reflexivity]. eapply Forall2_imp; [|exact Hs]. intros rng out (ion & k & _ & Hi & Ho).
    exists ion, k. split; [apply sample_ion; exact Hi|exact Ho].
Qed.
Print Assumptions C102_sputtering_yield.
Theorem C102_reflection_coefficient :
  forall build fuel (Z1 m1 Ec1 Es1 : R) Z2 m2 Ec2 Es2 Eb2 n2 energy angle rngs RN RE,
    reflection_coefficient build fuel Z1 m1 Ec1 Es1 Z2 m2 Ec2 Es2 Eb2 n2 energy angle rngs (RN, RE) -> rngs <> [] ->
    Rabs angle <= 90 /\ 0 <= RN <= 1 /\
    exists mat x outs,
      requested_species SBM_AVERAGE Z2 m2 Ec2 Es2 Eb2 mat /\ fills_half_space 1 n2 mat /\ (0 < Rsum n2 -> x < 0) /\
      Forall2 (fun rng out => exists ion k, sample_of Z1 m1 Ec1 Es1 energy angle x ion /\
        single_ion_bca build mat (default_options false) fuel ion rng 0%nat = Ok (out, k)) rngs outs /\
      RN = INR (length (filter ejected_ion (concat outs))) / INR (length rngs) /\
      RE * (INR (length rngs) * (energy * cEV)) = Rsum (map (@p_E R) (filter ejected_ion (concat outs))) /\ 0 < energy.
Proof.
  intros build fuel Z1 m1 Ec1 Es1 Z2 m2 Ec2 Es2 Eb2 n2 energy angle rngs RN RE H Hne. split.
  - destruct H as (? & ? & ? & ? & H & _). apply rassert_ok, nle_true in H. toR_in H. exact H.
  - apply C65_reflection_any_schedule_partial in H. destruct H as (mat & x & outs & Ht & Hm & HRN & HRE & Hb). split; [apply Hb; exact Hne|].
    apply reflection_samples in Hm. apply requested_yield_target in Ht. destruct Ht as (H1 & H2 & H3).
    exists mat, x, outs. split; [exact H1|]. split; [exact H2|]. split; [exact H3|]. split.
    { eapply Forall2_imp; [|exact Hm]. intros rng out (ion & k & _ & Hi & Ho). exists ion, k. split; [apply sample_ion; exact Hi|exact Ho]. }
    split; [exact HRN|].
    assert (He : 0 < energy).
    { destruct rngs as [|rng rngs]; [congruence|]. inversion Hm as [|? out ? ? (ion & k & _ & Hi & _) _]; subst.
      unfold default_incident in Hi. apply bind_ok in Hi. destruct Hi as (? & _ & Hi). apply bind_ok in Hi. destruct Hi as (? & Hi & _).
      apply rassert_ok, nlt_true in Hi. rewrite nZ_R in Hi. exact Hi. }
    split; [|exact He]. rewrite HRE. assert (0 < INR (length rngs)) by (apply lt_0_INR; destruct rngs; [congruence|cbn; lia]).
    pose proof cEV_pos. set (s := Rsum _). set (m := INR _) in *. set (ev := (cEV : R)) in *. clearbody s m ev. field. lra.
Qed.
Print Assumptions C102_reflection_coefficient.

(** ** the calls these statements are about return *)
Example C102_list_returns : forall build rng, unit_randoms rng ->
  exists rows n', compound_bca_list_c build 2 [mkV 0 1 0] 2 1 1 0 [29] [63] [85 / 1000] [1] [3] [0] rng 0%nat = Ok (rows, n') /\ length rows = 1%nat.
Proof.
  intros build rng Hr.
  set (ion := velocity_ion 1 2 1 0 (start_x (nsum [85 / 1000])) (nZ 1) 0%Z (mkV (nZ 0) (nZ 0) (nZ 0)) (mkV 0 1 0)).
  assert (Hv : 0 < vdot (mkV 0 1 0) (mkV 0 1 0)) by (unfold vdot; cbn [vx vy vz]; lra).
  destruct (velocity_ion_moving 1 2 1 0 (start_x (nsum [85 / 1000])) (nZ 1) 0%Z (mkV (nZ 0) (nZ 0) (nZ 0)) (mkV 0 1 0) Hv) as (u & Hri & Hu & Heq).
  fold ion in Hri. replace (vdot (mkV 0 1 0) (mkV 0 1 0)) with 1 in * by (unfold vdot; cbn [vx vy vz]; ring). rewrite sqrt_1 in Heq.
  assert (Hux : vx u = 0). { unfold vscale in Heq. assert (0 = 1 * vx u) by congruence. lra. }
  destruct Hri as [RZ Rm REc REs RE Rpos Rdir (Rpo & Rdo) Rinc Ract Rfirst].
  destruct (stays_outside true build 0 29 63 1 3 0 (85 / 1000) ion rng 0 ltac:(lra) Hr Ract) as (o & n' & Ho & Hl & Hs & _).
  - apply nZ_R.
  - exact Rfirst.
  - reflexivity.
  - congruence.
  - rewrite Rdir, Hux. lra.
  - rewrite Rpos. reflexivity.
  - rewrite RE, REc. unfold vdot. cbn [vx vy vz].
    assert (E1 : (cAMU : R) < 1 / 10 ^ 26) by (change ((IZR 166053906660 / IZR (10 ^ 38)) < 1 / 10 ^ 26); simpl (10 ^ 38)%Z; lra).
    assert (E2 : 1 / 10 ^ 20 < (cEV : R)) by (change (1 / 10 ^ 20 < (IZR 1602176634 / IZR (10 ^ 28))); simpl (10 ^ 28)%Z; lra).
    set (am := (cAMU : R)) in *. set (ev := (cEV : R)) in *. clearbody am ev. lra.
  - exists (map row9 (filter emitted [o])), n'. split.
    + unfold compound_bca_list_c. unfold mbind at 1, mlift at 1. cbn [length]. rewrite one_species_target. unfold mbind at 1. cbn [map run_all].
      fold ion. unfold mbind at 1. rewrite Ho. reflexivity.
    + rewrite map_length. cbn [filter]. unfold emitted. pose proof (run_first _ _ _ _ _ _ _ _ _ Ho) as (o' & rs & E & Hid & _).
      injection E as <- _. destruct Hid as (_&_&_&_&_&_&_&H&_). rewrite <- H, Rinc, orb_true_r. reflexivity.
Qed.
