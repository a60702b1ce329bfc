(** * ProofsEntry.v - the entry points simulate what the caller describes *)
From Coq Require Import ZArith List Bool Lia Reals Lra.
From Verif Require Import Num NumR ModelTypes ModelConsts ModelParticle ModelGeometry ModelMaterial ModelBca ModelInput ModelLib
  Spec SpecR SpecLib SpecEntry ProofsBase ProofsGeometry ProofsLib ProofsLibR.
Import ListNotations.
Open Scope R_scope.

Lemma runs_weaken {I} (a b : I -> Particle R -> Prop) build mat options fuel rng is n outs n' :
  (forall i p, In i is -> a i p -> b i p) ->
  runs_of a build mat options fuel rng is n outs n' -> runs_of b build mat options fuel rng is n outs n'.
Proof.
  intros H R. induction R as [|i is ion out outs n k n' Ha Hr R IH]; [constructor|].
  econstructor; [apply H; [left; reflexivity|exact Ha]|exact Hr|]. apply IH. intros j p Hj. apply H. right. exact Hj.
Qed.
Lemma run_all_runs {I} (f : I -> Particle R) build mat options fuel rng is : forall n ps n',
  run_all build mat options fuel (map f is) rng n = Ok (ps, n') ->
  exists outs, ps = concat outs /\ runs_of (fun i p => p = f i) build mat options fuel rng is n outs n'.
Proof.
  induction is as [|i is IH]; intros n ps n' H; cbn [map run_all] in H.
  - apply mret_ok in H. destruct H as (-> & ->). exists []. split; [reflexivity|constructor].
  - apply mbind_ok in H. destruct H as (out & k & Ho & H). apply mbind_ok in H. destruct H as (rest & k' & Hr & H).
    apply mret_ok in H. destruct H as (-> & ->). apply IH in Hr. destruct Hr as (outs & -> & Hr).
    exists (out :: outs). split; [reflexivity|]. econstructor; [reflexivity|exact Ho|exact Hr].
Qed.
Lemma py_loop_runs build mat options fuel x rng is : forall n ps n',
  py_loop build mat options fuel x is rng n = Ok (ps, n') ->
  exists outs, ps = concat outs /\
    runs_of (fun i p => default_incident (py_m1 i) (py_Z1 i) (py_energy i) (py_Ec1 i) (py_Es1 i) x (py_ux i) (py_uy i) (py_uz i) = Ok p)
      build mat options fuel rng is n outs n'.
Proof.
  induction is as [|i is IH]; intros n ps n' H; cbn [py_loop] in H.
  - apply mret_ok in H. destruct H as (-> & ->). exists []. split; [reflexivity|constructor].
  - apply mbind_ok in H. destruct H as (ion & k0 & Hi & H). apply mlift_ok in Hi. destruct Hi as (Hi & ->).
    apply mbind_ok in H. destruct H as (out & k & Ho & H). apply mbind_ok in H. destruct H as (rest & k' & Hr & H).
    apply mret_ok in H. destruct H as (-> & ->). apply IH in Hr. destruct Hr as (outs & -> & Hr).
    exists (out :: outs). split; [reflexivity|]. econstructor; [exact Hi|exact Ho|exact Hr].
Qed.
Lemma skipn_cons {A} (l : list A) k a : nth_error l k = Some a -> skipn k l = a :: skipn (S k) l.
Proof.
  revert k. induction l as [|b l IH]; intros [|k] H; try discriminate; cbn in *; [injection H as ->; reflexivity|]. apply IH. exact H.
Qed.
(** the requests of the tagged interface *)
Definition tagged_requests (inp : InputTagged R) (k : nat) (vs : list (Vector R)) : list (Vector R * (Vector R * (R * Z))) :=
  combine vs (combine (skipn k (it_positions inp)) (combine (skipn k (it_weights inp)) (skipn k (it_tags inp)))).
Lemma tagged_loop_runs build mat options fuel inp x rng vs : forall k n ps n',
  tagged_loop build mat options fuel inp x k vs rng n = Ok (ps, n') ->
  exists outs, ps = concat outs /\
    runs_of (fun i p => p = velocity_ion (it_m1 inp) (it_Z1 inp) (it_Ec1 inp) (it_Es1 inp) x (fst (snd (snd i))) (snd (snd (snd i)))
                              (fst (snd i)) (fst i))
      build mat options fuel rng (tagged_requests inp k vs) n outs n' /\ length (tagged_requests inp k vs) = length vs.
Proof.
  induction vs as [|v vs IH]; intros k n ps n' H; cbn [tagged_loop] in H.
  - apply mret_ok in H. destruct H as (-> & ->). exists []. split; [reflexivity|]. split; [constructor|reflexivity].
  - apply mbind_ok in H. destruct H as (ion & k0 & Hi & H). apply mlift_ok in Hi. destruct Hi as (Hi & ->).
    apply mbind_ok in H. destruct H as (out & k1 & Ho & H). apply mbind_ok in H. destruct H as (rest & k' & Hr & H).
    apply mret_ok in H. destruct H as (-> & ->). apply IH in Hr. destruct Hr as (outs & -> & Hr & Hlen).
    exists (out :: outs). split; [reflexivity|]. unfold tagged_ion in Hi.
    apply bind_ok in Hi. destruct Hi as (w & Hw & Hi). apply bind_ok in Hi. destruct Hi as (t & Ht & Hi).
    apply bind_ok in Hi. destruct Hi as (pos & Hp & Hi). apply idx_ok in Hw, Ht, Hp.
    unfold tagged_requests. rewrite (skipn_cons _ _ _ Hw), (skipn_cons _ _ _ Ht), (skipn_cons _ _ _ Hp). cbn [combine length].
    split; [|f_equal; exact Hlen].
    econstructor; [|exact Ho|exact Hr]. cbn [fst snd]. assert (I : forall x y : Particle R, Ok x = Ok y -> x = y) by congruence.
    symmetry. apply I. exact Hi.
Qed.

(** ** ions *)
Lemma vmag_pos v : 0 < vdot v v -> 0 < sqrt (vdot v v) /\ sqrt (vdot v v) * sqrt (vdot v v) = vdot v v.
Proof. intros H. split; [apply sqrt_lt_R0; exact H|apply sqrt_sqrt; lra]. Qed.
Lemma normalised v : 0 < vdot v v ->
  let u := mkV (vx v / sqrt (vdot v v)) (vy v / sqrt (vdot v v)) (vz v / sqrt (vdot v v)) in
  is_unit u /\ v = vscale (sqrt (vdot v v)) u.
Proof.
  intros H. destruct (vmag_pos v H) as (Hs & Hss). destruct v as [a b c]. cbn [vx vy vz] in *. unfold is_unit, vscale.
  set (s := sqrt (vdot (mkV a b c) (mkV a b c))) in *. clearbody s. unfold vdot in *. cbn [vx vy vz] in *.
  split; [|f_equal; field; lra].
  replace (a / s * (a / s) + b / s * (b / s) + c / s * (c / s)) with ((a * a + b * b + c * c) / (s * s)) by (field; lra).
  rewrite Hss. field. lra.
Qed.
Lemma velocity_ion_moving m1 Z1 Ec1 Es1 x w tag tracked v : 0 < vdot v v ->
  moving_with Z1 m1 Ec1 Es1 (mkV x 0 0) v (velocity_ion m1 Z1 Ec1 Es1 x w tag tracked v).
Proof.
  intros H. destruct (normalised v H) as (Hu & Hv). eexists. split; [|split; [exact Hu|exact Hv]].
  destruct (vmag_pos v H) as (Hs & Hss).
  unfold velocity_ion, literal_incident.
  replace (nsqrt (vx v *! vx v +! vy v *! vy v +! vz v *! vz v)%num) with (sqrt (vdot v v)) by reflexivity.
  set (s := sqrt (vdot v v)) in *. clearbody s.
  constructor; cbn [p_Z p_m p_Ec p_Es p_E p_pos p_dir p_pos_old p_dir_old p_incident p_stopped p_left p_first_step]; try reflexivity; auto.
  - toR. change (@nlit R NumR) with Rlit. replace (Rlit 5 (-1)) with (1 / 2)%R by (unfold Rlit; simpl; lra). rewrite <- Hss. ring.
  - rewrite !nZ_R. reflexivity.
  - rewrite !nZ_R. split; reflexivity.
Qed.
Lemma default_incident_flying m Z E Ec Es x a b c p : 0 < vdot (mkV a b c) (mkV a b c) ->
  default_incident m Z E Ec Es x a b c = Ok p -> flying_along Z m Ec Es E (mkV x 0 0) (mkV a b c) p.
Proof.
  intros H Hp. unfold default_incident in Hp. apply bind_ok in Hp. destruct Hp as (? & _ & Hp).
  apply bind_ok in Hp. destruct Hp as (? & _ & Hp). assert (I : forall x y : Particle R, Ok x = Ok y -> x = y) by congruence.
  apply I in Hp. subst p. destruct (normalised _ H) as (Hu & Hv). eexists. split; [|split; [exact Hu|exact Hv]].
  cbn [vx vy vz].
  constructor; cbn [p_Z p_m p_Ec p_Es p_E p_pos p_dir p_pos_old p_dir_old p_incident p_stopped p_left p_first_step]; try reflexivity; auto;
    rewrite !nZ_R; try split; reflexivity.
Qed.
Lemma literal_requested m1 Z1 E Ec1 Es1 x y z a b c w tag tracked :
  requested_ion Z1 m1 Ec1 Es1 (E * cEV) (mkV x y z) (mkV a b c)
    (literal_incident (m1 *! cAMU)%num Z1 (E *! cEV)%num (Ec1 *! cEV)%num (Es1 *! cEV)%num x y z a b c w tag tracked).
Proof.
  constructor; cbn [literal_incident p_Z p_m p_Ec p_Es p_E p_pos p_dir p_pos_old p_dir_old p_incident p_stopped p_left p_first_step];
    try reflexivity; split; reflexivity.
Qed.

(** ** targets *)
Lemma zeros_in_joule n : Forall (fun e => e = 0) (map (fun i : R => (i *! cEV)%num) (repeat (nZ 0) n)).
Proof. induction n; cbn [repeat map]; constructor; [|assumption]. rewrite nZ_R. toR. ring. Qed.
Lemma requested_0d sbm lu u (Z2 m2 n2 Ec2 Es2 Eb2 : list R) k ii mat :
  length_unit_value lu = Ok u ->
  target_0d sbm lu Z2 m2 n2 Ec2 Es2 Eb2 (repeat (nZ 0) k) ii = Ok mat -> ii = repeat 0%nat (length Z2) ->
  requested_species sbm Z2 m2 Ec2 Es2 Eb2 mat /\ fills_half_space u n2 mat.
Proof.
  intros Hu H Hii. unfold target_0d, material_new, mesh0d_new in H. cbn [m0i_length_unit m0i_densities m0i_ck] in H. rewrite Hu in H.
  cbn [mp_energy_unit mp_mass_unit energy_unit_value mass_unit_value bind] in H.
  assert (I : forall x y : Material R, Ok x = Ok y -> x = y) by congruence. apply I in H. subst mat.
  split; constructor; cbn [mat_Z mat_m mat_Ec mat_Es mat_Eb mat_Ed mat_surface_binding_model mat_bulk_binding_model mat_geometry
    mp_Z mp_m mp_Ec mp_Es mp_Eb mp_Ed mp_surface_binding_model mp_bulk_binding_model]; try reflexivity; try assumption.
  - apply zeros_in_joule.
  - intros. cbn [mesh0d_geometry g_get_ck m0_ck]. rewrite nZ_R. reflexivity.
  - intros. cbn [mesh0d_geometry g_inside]. rewrite nlt_true, nZ_R. reflexivity.
Qed.
Lemma requested_yield_target (Z2 m2 Ec2 Es2 Eb2 n2 : list R) mat x :
  yield_target Z2 m2 Ec2 Es2 Eb2 n2 = Ok (mat, x) ->
  requested_species SBM_AVERAGE Z2 m2 Ec2 Es2 Eb2 mat /\ fills_half_space 1 n2 mat /\ (0 < Rsum n2 -> x < 0).
Proof.
  unfold yield_target, mesh0d_new, material_new. cbn [m0i_length_unit m0i_densities m0i_ck length_unit_value bind
    mp_energy_unit mp_mass_unit energy_unit_value mass_unit_value]. intros H.
  assert (I : forall (a b : Material R) (x y : R), Ok (a, x) = Ok (b, y) -> a = b /\ x = y) by (intros; split; congruence).
  apply I in H. destruct H as (<- & <-).
  split; [|split]; [constructor|constructor|]; cbn [mat_Z mat_m mat_Ec mat_Es mat_Eb mat_Ed mat_surface_binding_model mat_bulk_binding_model mat_geometry
    mp_Z mp_m mp_Ec mp_Es mp_Eb mp_Ed mp_surface_binding_model mp_bulk_binding_model]; try reflexivity; try assumption.
  - apply zeros_in_joule.
  - intros. cbn [mesh0d_geometry g_get_densities m0_densities]. rewrite convert_R. f_equal. apply map_ext. intros d. f_equal. rewrite !nZ_R. ring.
  - intros. cbn [mesh0d_geometry g_get_ck m0_ck]. rewrite nZ_R. reflexivity.
  - intros. cbn [mesh0d_geometry g_inside]. rewrite nlt_true, nZ_R. reflexivity.
  - intros Hn. cbn [m0_energy_barrier_thickness].
    assert (E : convert_densities (nZ 1) n2 = n2).
    { rewrite convert_R, nZ_R. rewrite <- (map_id n2) at 2. apply map_ext. intros d. field. }
    rewrite E, thickness_R by exact Hn. pose proof two_over_sqrtpi as Ht.
    assert (0 < Rpower (Rsum n2) (-1 / 3)) by apply exp_pos. toR. nra.
Qed.
Lemma row9_nine (p : Particle R) : row9 p = nine p (p_E p / cEV) (p_pos p).
Proof. reflexivity. Qed.
Lemma start_x_neg n2 : 0 < Rsum n2 -> start_x (nsum n2) < 0.
Proof.
  intros H. rewrite nsum_R. fold (Rsum n2). rewrite start_x_R by exact H. pose proof cube_root_bounds.
  assert (0 < Rpower (Rsum n2 * IZR (10 ^ 30)) (-1 / 3)) by apply exp_pos. nra.
Qed.

(** ** the angle of incidence *)
Lemma diff_bound a b : a * a + b * b = 1 -> -3 / 2 <= a - b <= 3 / 2.
Proof.
  intros H. assert (H2 : (a - b) * (a - b) <= 2) by (pose proof (Rle_0_sqr (a + b)) as Hq; unfold Rsqr in Hq; nra).
  set (t := a - b) in *. clearbody t. split; nra.
Qed.
Lemma near_normalised a b e : 0 < e <= 1 / 100 -> a * a + b * b = 1 ->
  let d := mkV (a + e) (b - e) 0 in forall u, is_unit u -> d = vscale (sqrt (vdot d d)) u -> near (3 * e) u (mkV a b 0).
Proof.
  intros He Hab d u Hu Hd. unfold is_unit, vdot in Hu. destruct u as [p q r]. cbn [vx vy vz] in Hu.
  set (s := sqrt (vdot d d)) in *.
  assert (Hdd : vdot d d = 1 + 2 * e * (a - b) + 2 * e * e) by (unfold d, vdot; cbn [vx vy vz]; nra).
  pose proof (diff_bound a b Hab) as Hb.
  assert (Hs0 : 0 <= vdot d d) by (rewrite Hdd; nra).
  assert (Hss : s * s = vdot d d) by (apply sqrt_sqrt; exact Hs0). assert (Hs : 0 <= s) by apply sqrt_pos.
  rewrite Hdd in Hss. clearbody s. clear Hdd Hs0. unfold d, vscale in Hd. cbn [vx vy vz] in Hd.
  assert (E1 : a + e = s * p) by congruence. assert (E2 : b - e = s * q) by congruence. assert (E3 : 0 = s * r) by congruence. clear Hd.
  assert (Hs1 : 1 - 2 * e <= s <= 1 + 2 * e) by (split; nra).
  assert (Hr : r = 0) by nra. subst r.
  assert (Hp : -1 <= p <= 1) by (split; nra). assert (Hq : -1 <= q <= 1) by (split; nra).
  unfold near. cbn [vx vy vz]. replace (p - a) with (p * (1 - s) + e) by lra. replace (q - b) with (q * (1 - s) - e) by lra. repeat split; apply Rabs_le; split; nra.
Qed.
Lemma incidence_near (angle : R) : let d := incidence angle in
  0 < vdot d d /\ forall u, is_unit u -> d = vscale (sqrt (vdot d d)) u -> near (3 / 1000000) u (at_angle angle).
Proof.
  unfold incidence, at_angle. toR. change (@ncos R NumR) with cos. change (@nsin R NumR) with sin. change (@npi R NumR) with PI.
  change (@nlit R NumR) with Rlit. replace (Rlit 1 (-6)) with (1 / 1000000) by (unfold Rlit; simpl; lra).
  replace (angle / IZR 180 * PI) with (angle * PI / 180) by field.
  set (t := angle * PI / 180). assert (Ht : cos t * cos t + sin t * sin t = 1) by (pose proof (sin2_cos2 t) as H; unfold Rsqr in H; lra).
  split.
  - unfold vdot. cbn [vx vy vz]. set (c := cos t) in *. set (s := sin t) in *.
    pose proof (diff_bound c s Ht). nra.
  - intros u Hu Hd. replace (3 / 1000000) with (3 * (1 / 1000000)) by field.
    eapply near_normalised; [lra|exact Ht|exact Hu|exact Hd].
Qed.

(** ** layered targets *)
Lemma layers_lookup u dx : 0 < u -> forall n2 top layers b, length dx = length n2 ->
  mesh1d_layers u top top (combine (combine dx (map (convert_densities u) n2)) (repeat (nZ 1) (length n2))) = Ok (layers, b) ->
  b = top + u * Rsum dx /\ top <= b /\ Forall (fun l => l_ck l = 1) layers /\
  forall x, top < x <= b -> exists l n, find (fun l => layer_contains l x) layers = Some l /\ layer_at dx n2 ((x - top) / u) n /\
    l_densities l = map (fun d => d / u ^ 3) n.
Proof.
  intros Hu. induction dx as [|t dx IH]; intros [|n0 n2] top layers b Hlen H; try discriminate; cbn [combine map length repeat mesh1d_layers] in H.
  - assert (I : forall (a c : list (Layer1D R)) (x y : R), Ok (a, x) = Ok (c, y) -> a = c /\ x = y) by (intros; split; congruence).
    apply I in H. destruct H as (<- & <-). unfold Rsum. cbn [fold_right]. split; [ring|]. split; [lra|]. split; [constructor|]. intros x Hx. lra.
  - apply bind_ok in H. destruct H as (layer & Hl & H). apply bind_ok in H. destruct H as ([ls b'] & Hr & H).
    assert (I : forall (a c : list (Layer1D R)) (x y : R), Ok (a, x) = Ok (c, y) -> a = c /\ x = y) by (intros; split; congruence).
    apply I in H. destruct H as (<- & <-). unfold layer1d_new in Hl. apply bind_ok in Hl. destruct Hl as (uu0 & Ht & Hl). apply rassert_ok, nlt_true in Ht.
    assert (J : forall x y : Layer1D R, Ok x = Ok y -> x = y) by congruence. apply J in Hl. subst layer. toR_in Ht.
    cbn [length] in Hlen. specialize (IH n2 _ _ _ (eq_add_S _ _ Hlen) Hr). destruct IH as (Hb & Hle & Hck & Hfind). toR_in Hb. toR_in Hle.
    assert (E : forall a, Rsum (a :: dx) = a + Rsum dx) by reflexivity. rewrite E.
    split; [rewrite Hb; ring|]. split; [lra|]. split; [constructor; [apply nZ_R|exact Hck]|].
    intros x Hx. set (L := {| l_top := top; l_bottom := (top +! t *! u)%num; l_densities := convert_densities u n0;
                l_concentrations := concentrations_of (convert_densities u n0); l_ck := nZ 1 |}). cbn [find].
    assert (HL : layer_contains L x = true <-> top < x <= top + t * u).
    { unfold layer_contains. rewrite andb_true_iff, nlt_true, nle_true. cbn [L l_top l_bottom]. toR. reflexivity. }
    destruct (Rle_dec x (top + t * u)) as [Hc|Hc].
    + exists L, n0. rewrite (proj2 HL) by lra.
      split; [reflexivity|]. split.
      * left. split; [|reflexivity]. split; [apply Rdiv_lt_0_compat; lra|]. apply (Rmult_le_reg_r u); [exact Hu|]. replace ((x - top) / u * u) with (x - top) by (field; lra). lra.
      * cbn [L l_densities]. rewrite convert_R. apply map_ext. intros d. f_equal. ring.
    + replace (layer_contains L x) with false by (symmetry; apply not_true_iff_false; rewrite HL; lra).
      destruct (Hfind x) as (l & n & Hf & Ha & Hd); [toR; lra|]. exists l, n. split; [exact Hf|]. split; [|exact Hd].
      right. toR_in Ha. split.
      * apply (Rmult_lt_reg_r u); [exact Hu|]. replace ((x - top) / u * u) with (x - top) by (field; lra). lra.
      * replace ((x - top) / u - t) with ((x - (top + t * u)) / u) by (field; lra). exact Ha.
Qed.
Lemma angstrom_pos : 0 < (cANGSTROM : R).
Proof. rewrite angstrom_R. apply Rdiv_lt_0_compat; [lra|]. apply (IZR_lt 0). reflexivity. Qed.
Lemma requested_1d (Z2 m2 Ec2 Es2 Eb2 dx : list R) (n2 : list (list R)) k g mat :
  mesh1d_new (mkMesh1DInput LU_ANGSTROM dx n2 (repeat (nZ 1) (length n2))) = Ok g ->
  material_new
      {| mp_energy_unit := EU_EV; mp_mass_unit := MU_AMU; mp_Eb := Eb2; mp_Es := Es2; mp_Ec := Ec2;
         mp_Ed := repeat (nZ 0) k; mp_Z := Z2; mp_m := m2; mp_interaction_index := repeat 0%nat (length Z2);
         mp_surface_binding_model := SBM_INDIVIDUAL; mp_bulk_binding_model := BBM_INDIVIDUAL |} (Ok (mesh1d_geometry g)) = Ok mat ->
  requested_species SBM_INDIVIDUAL Z2 m2 Ec2 Es2 Eb2 mat /\ fills_layers cANGSTROM dx n2 mat /\
  (0 < Rsum (nth 0 n2 []) -> ((-! m1_top_energy_barrier_thickness g) /! nZ 2)%num < 0).
Proof.
  intros Hg H. unfold material_new in H. cbn [mp_energy_unit mp_mass_unit energy_unit_value mass_unit_value bind] in H.
  assert (I : forall x y : Material R, Ok x = Ok y -> x = y) by congruence. apply I in H. subst mat.
  pose proof (fun x => mesh1d_select_spec _ _ x Hg) as Hsel. pose proof Hg as Hinv. apply mesh1d_new_inv in Hinv.
  destruct Hinv as (u & rows & first & last & Hu & -> & Hlen & Hl & Ht & Hf & _ & Hb & _).
  cbn [m1i_length_unit m1i_layer_thicknesses m1i_densities m1i_cks length_unit_value] in *.
  assert (U : forall x y : R, Ok x = Ok y -> x = y) by congruence. apply U in Hu. subst u.
  pose proof (layers_lookup cANGSTROM dx angstrom_pos n2 0 _ _ Hlen Hl) as (Eb & Hle & Hck & Hfind).
  assert (Ein : forall x, mesh1d_inside g x = true <-> 0 < x < cANGSTROM * Rsum dx).
  { intros x. unfold mesh1d_inside. rewrite andb_true_iff, !nlt_true, Ht, Eb. rewrite Rplus_0_l. tauto. }
  split; [|split]; [constructor|constructor|]; cbn [mat_Z mat_m mat_Ec mat_Es mat_Eb mat_Ed mat_surface_binding_model mat_bulk_binding_model mat_geometry
    mp_Z mp_m mp_Ec mp_Es mp_Eb mp_Ed mp_surface_binding_model mp_bulk_binding_model]; try reflexivity; try assumption.
  - apply zeros_in_joule.
  - intros x y z Hx. cbn [mesh1d_geometry g_get_densities]. unfold mesh1d_select. rewrite (proj2 (Ein x) Hx).
    destruct (Hfind x) as (l & n & Hfd & Ha & Hd); [rewrite Eb; lra|]. rewrite Hfd. cbn [bind]. exists n. rewrite Rminus_0_r in Ha. split; [exact Ha|].
    f_equal. exact Hd.
  - intros x y z. cbn [mesh1d_geometry g_get_ck]. destruct (Hsel x) as (i & l & Hs & Hn & _). rewrite Hs. cbn [bind]. f_equal.
    rewrite Forall_forall in Hck. apply Hck. eapply nth_error_In. exact Hn.
  - intros x y z. apply Ein.
  - intros Hn. rewrite Hb.
    assert (Efirst : l_densities first = convert_densities cANGSTROM (nth 0 n2 [])).
    { destruct dx as [|t dx]; destruct n2 as [|n0 n2]; try discriminate; cbn [combine map length repeat mesh1d_layers] in Hl.
      apply bind_ok in Hl. destruct Hl as (layer & Hly & Hl). apply bind_ok in Hl. destruct Hl as ([ls b'] & _ & Hl).
        assert (K : forall (a c : list (Layer1D R)) (x y : R), Ok (a, x) = Ok (c, y) -> a = c /\ x = y) by (intros; split; congruence).
        apply K in Hl. destruct Hl as (Hl & _). rewrite <- Hl in Hf. cbn [nth_error] in Hf. injection Hf as <-.
        unfold layer1d_new in Hly. apply bind_ok in Hly. destruct Hly as (? & _ & Hly).
        assert (J : forall x y : Layer1D R, Ok x = Ok y -> x = y) by congruence. apply J in Hly. subst layer. reflexivity. }
    rewrite Efirst, thickness_R by (rewrite convert_sum; apply Rmult_lt_0_compat; [exact Hn|apply (IZR_lt 0); reflexivity]).
    pose proof two_over_sqrtpi as H2. match goal with |- context [Rpower ?a ?b] => assert (0 < Rpower a b) by apply exp_pos; set (w := Rpower a b) in * end.
    toR. set (q := 2 / sqrt PI) in *. clearbody q w. change (- (q * w) / 2 < 0). nra.
Qed.
