(** * PropertiesMeans.v - C129: averages of the sampled collision geometries *)
From Coq Require Import ZArith List Bool Lia Reals Lra.
From Coquelicot Require Import Coquelicot.
From Verif Require Import Num NumR ModelTypes ModelConsts ModelParticle ModelGeometry ModelMaterial ModelBca.
From Verif Require Import Spec SpecR SpecDist SpecMeans ProofsBase ProofsSampling ProofsMaterial ProofsInteractions ToyR PropertiesDist.
Import ListNotations.
Open Scope R_scope.

Lemma near_ends : filter_prod (at_right 0) (at_left 1) (fun ab => 0 < fst ab < 1 /\ 0 < snd ab < 1).
Proof.
  exists (fun a => 0 < a < 1) (fun b => 0 < b < 1).
  - exists (mkposreal 1 Rlt_0_1). intros y Hy H0. unfold ball in Hy. cbn in Hy. unfold AbsRing_ball, abs, minus, plus, opp in Hy. cbn in Hy.
    apply Rabs_def2 in Hy. lra.
  - exists (mkposreal 1 Rlt_0_1). intros y Hy H0. unfold ball in Hy. cbn in Hy. unfold AbsRing_ball, abs, minus, plus, opp in Hy. cbn in Hy.
    apply Rabs_def2 in Hy. lra.
  - intros x y Hx Hy. cbn. auto.
Qed.
Lemma between a b x : 0 < a < 1 -> 0 < b < 1 -> Rmin a b <= x <= Rmax a b -> 0 < x < 1.
Proof. intros Ha Hb. unfold Rmin, Rmax. destruct (Rle_dec a b); lra. Qed.
Lemma average_ext f g v : (forall u, 0 < u < 1 -> f u = g u) -> average f v -> average g v.
Proof.
  intros H A. refine (is_RInt_gen_ext f g v _ A). eapply filter_imp; [|exact near_ends]. intros (a & b) (Ha & Hb) x Hx. apply H. cbn [fst snd] in *. apply (between a b); [exact Ha|exact Hb|lra].
Qed.
Lemma average_primitive f G la lb v : lb - la = v ->
  (forall u, 0 < u < 1 -> is_derive G u (f u)) -> (forall u, 0 < u < 1 -> continuous f u) ->
  filterlim G (at_right 0) (locally la) -> filterlim G (at_left 1) (locally lb) -> average f v.
Proof.
  intros <- Hd Hc H0 H1. apply average_ext with (Derive G).
  - intros u Hu. apply is_derive_unique. auto.
  - refine (is_RInt_gen_Derive (Fa := at_right 0) (Fb := at_left 1) G la lb _ _ H0 H1); (refine (filter_imp _ _ _ near_ends)); intros (a & b) (Ha & Hb) x Hx; cbn [fst snd] in Ha, Hb, Hx; pose proof (between _ _ _ Ha Hb Hx) as Hu.
    + exists (f x). auto.
    + apply continuous_ext_loc with f; [|auto].
      assert (Hp : 0 < Rmin x (1 - x)) by (apply Rmin_glb_lt; lra).
      exists (mkposreal _ Hp). intros y Hy. unfold ball in Hy. cbn in Hy. unfold AbsRing_ball, abs, minus, plus, opp in Hy. cbn in Hy.
      symmetry. apply is_derive_unique. apply Hd. apply Rabs_def2 in Hy. pose proof (Rmin_l x (1 - x)). pose proof (Rmin_r x (1 - x)). lra.
Qed.
Lemma average_smooth f G v : G 1 - G 0 = v -> (forall u, 0 <= u <= 1 -> is_derive G u (f u)) -> (forall u, 0 < u < 1 -> continuous f u) -> average f v.
Proof.
  intros Hv Hd Hc. apply (average_primitive f G (G 0) (G 1) v); [exact Hv|intros u Hu; apply Hd; lra|exact Hc| |].
  - refine (filterlim_filter_le_1 (F := locally 0) _ (filter_le_within _) _). apply (ex_derive_continuous (K := R_AbsRing) (V := R_NormedModule)). exists (f 0). apply Hd. lra.
  - refine (filterlim_filter_le_1 (F := locally 1) _ (filter_le_within _) _). apply (ex_derive_continuous (K := R_AbsRing) (V := R_NormedModule)). exists (f 1). apply Hd. lra.
Qed.
Lemma left_limit (G : R -> R) : ex_derive G 1 -> filterlim G (at_left 1) (locally (G 1)).
Proof.
  intros H. refine (filterlim_filter_le_1 (F := locally 1) _ (filter_le_within _) _).
  apply (ex_derive_continuous (K := R_AbsRing) (V := R_NormedModule)). exact H.
Qed.
Lemma average_line a b : average (fun u => a * u + b) (a / 2 + b).
Proof.
  apply (average_smooth (fun u => a * u + b) (fun u => a * u * u / 2 + b * u)); [cbn beta; field|intros u _..].
  - auto_derive; [exact I|]. field.
  - apply (ex_derive_continuous (K := R_AbsRing) (V := R_NormedModule)). auto_derive. exact I.
Qed.
Lemma average_cos : average (fun u => cos (2 * PI * u)) 0.
Proof.
  pose proof PI_RGT_0.
  apply (average_smooth (fun u => cos (2 * PI * u)) (fun u => sin (2 * PI * u) / (2 * PI)));
    [cbn beta; rewrite Rmult_1_r, Rmult_0_r, sin_2PI, sin_0; field; lra|intros u _..].
  - auto_derive; [exact I|]. field; lra.
  - apply (ex_derive_continuous (K := R_AbsRing) (V := R_NormedModule)). auto_derive. exact I.
Qed.
Lemma average_sin : average (fun u => sin (2 * PI * u)) 0.
Proof.
  pose proof PI_RGT_0.
  apply (average_smooth (fun u => sin (2 * PI * u)) (fun u => - cos (2 * PI * u) / (2 * PI)));
    [cbn beta; rewrite Rmult_1_r, Rmult_0_r, cos_2PI, cos_0; field; lra|intros u _..].
  - auto_derive; [exact I|]. field; lra.
  - apply (ex_derive_continuous (K := R_AbsRing) (V := R_NormedModule)). auto_derive. exact I.
Qed.
Lemma lim_u_ln_u : filterlim (fun u => u * ln u) (at_right 0) (locally 0).
Proof.
  pose proof (filterlim_comp _ _ _ Rinv (fun y => ln y / y) _ _ _ filterlim_Rinv_0_right is_lim_div_ln_p) as H.
  assert (H' : filterlim (fun u => - (ln (/ u) / / u)) (at_right 0) (locally (- 0))).
  { apply (filterlim_comp _ _ _ (fun u => ln (/ u) / / u) Ropp _ _ _ H). apply (filterlim_opp (K := R_AbsRing) (V := R_NormedModule)). }
  rewrite Ropp_0 in H'. eapply filterlim_ext_loc; [|exact H'].
  exists (mkposreal 1 Rlt_0_1). intros y _ Hy. cbn beta. rewrite ln_Rinv by exact Hy. field. lra.
Qed.
Lemma average_ln a : average (fun u => a * - ln u) a.
Proof.
  apply (average_primitive (fun u => a * - ln u) (fun u => a * (u - u * ln u)) 0 (a * (1 - 1 * ln 1))); [rewrite ln_1; ring| | | |].
  - intros u Hu. auto_derive; [lra|]. field. lra.
  - intros u Hu. apply (ex_derive_continuous (K := R_AbsRing) (V := R_NormedModule)). auto_derive. lra.
  - replace 0 with (a * (0 - 0)) at 2 by ring.
    apply (filterlim_comp _ _ _ (fun u => u - u * ln u) (fun y => a * y) _ (locally (0 - 0))).
    + apply (filterlim_comp_2 (F := at_right 0) (G := locally 0) (H := locally (- 0)) (fun u => u) (fun u => - (u * ln u)) Rplus).
      * exact (filterlim_filter_le_1 (F := locally 0) _ (filter_le_within _) (filterlim_id _ _)).
      * apply (filterlim_comp _ _ _ (fun u => u * ln u) Ropp _ _ _ lim_u_ln_u). apply (filterlim_opp (K := R_AbsRing) (V := R_NormedModule)).
      * apply (filterlim_plus (K := R_AbsRing) (V := R_NormedModule)).
    + apply (filterlim_scal_r (K := R_AbsRing) (V := R_NormedModule)).
  - refine (left_limit (fun u => a * (u - u * ln u)) _). auto_derive. lra.
Qed.

Lemma with_number_same rng i u : with_number rng i u i = u.
Proof. unfold with_number. rewrite Nat.eqb_refl. reflexivity. Qed.
Lemma with_number_other rng i j u : j <> i -> with_number rng i u j = rng j.
Proof. intros H. unfold with_number. apply Nat.eqb_neq in H. rewrite H. reflexivity. Qed.

Lemma average_is f g v w : average f v -> v = w -> (forall u, 0 < u < 1 -> f u = g u) -> average g w.
Proof. intros H <- E. exact (average_ext _ _ _ E H). Qed.

(** Averages over the number that decides, all other numbers being whatever they are:
    - no side is preferred: the direction from the path to the collision partner averages to zero;
    - the mean squared distance of the k-th partner is that of a ring of area N^(-2/3) around a disc of k such areas;
    - a gas has the mean free path N^(-1/3), and the first step is half as long. *)
Theorem C129_averages :
  forall (mat : Material R) (options : Options R) (p : Particle R) rng n densities k get,
    let N := Rsum densities in
    let mfp := Rpower N (-1 / 3) in
    let w := S (o_weak_collision_order options) in
    let sampled rng := of_geometry get k (determine_mfp_phi_impact_parameter mat options p rng n) in
    g_get_densities (mat_geometry mat) (vx (p_pos p)) (vy (p_pos p)) (vz (p_pos p)) = Ok densities -> 0 < N ->
    o_high_energy_free_flight_paths options = false -> (k < w)%nat ->
    ((forall b, get b = cos (bcg_phi_azimuthal b)) -> average (fun u => sampled (with_number rng (n + k) u)) 0) /\
    ((forall b, get b = sin (bcg_phi_azimuthal b)) -> average (fun u => sampled (with_number rng (n + k) u)) 0) /\
    ((forall b, get b = bcg_impact_parameter b * bcg_impact_parameter b) ->
       average (fun u => sampled (with_number rng (n + w + k) u)) ((INR k + 1 / 2) * Rpower N (-2 / 3) / PI)) /\
    ((forall b, get b = bcg_mfp b) ->
       match o_mean_free_path_model options, p_first_step p with
       | GASEOUS, false => average (fun u => sampled (with_number rng (n + 2 * w) u)) mfp
       | GASEOUS, true => exists f, average f (mfp / 2) /\
           forall v, average (fun u => sampled (with_number (with_number rng (n + 2 * w) v) (S (n + 2 * w)) u)) (f v)
       | _, true => average (fun u => sampled (with_number rng (n + 2 * w) u)) (mfp / 2)
       | _, false => average (fun u => sampled (with_number rng (n + 2 * w) u)) mfp
       end).
Proof.
  intros mat options p rng n ds k get N mfp w sampled Hd HN Hh Hk.
  destruct (mat_mfp_R _ _ _ _ _ Hd HN) as (Hm & Hmp). fold N in Hm, Hmp. fold mfp in Hm, Hmp.
  assert (E : forall rng, sampled rng = get (mkBCG (2 * PI * rng (n + k)%nat) (mfp / sqrt PI * sqrt (rng (n + w + k)%nat + INR k))
      (sampled_path options (p_first_step p) mfp rng (n + w + w)))).
  { intros r. unfold sampled. destruct (determine_value mat options p r n mfp Hh Hm) as (n0 & -> & _). fold w. cbn [of_geometry].
    rewrite (map_nth_error _ k (seq 0 w) (d := k)).
    - rewrite nnat_R, cSQRTPI_R, nZ_R. reflexivity.
    - rewrite (nth_error_nth' (seq 0 w) 0%nat) by (rewrite seq_length; exact Hk). rewrite seq_nth by exact Hk. reflexivity. }
  clearbody sampled. pose proof PI_RGT_0 as HP.
  split; [|split; [|split]]; intros Hg.
  - apply (average_ext (fun u => cos (2 * PI * u))); [|exact average_cos]. intros u _. rewrite E, Hg. cbn [bcg_phi_azimuthal]. rewrite with_number_same. reflexivity.
  - apply (average_ext (fun u => sin (2 * PI * u))); [|exact average_sin]. intros u _. rewrite E, Hg. cbn [bcg_phi_azimuthal]. rewrite with_number_same. reflexivity.
  - refine (average_is _ _ _ _ (average_line (mfp * mfp / PI) (mfp * mfp / PI * INR k)) _ _).
    { rewrite cell_area by exact HN. fold mfp. field. lra. }
    intros u Hu. rewrite E, Hg. cbn [bcg_impact_parameter].
    rewrite with_number_same. pose proof (pos_INR k).
    replace (mfp / sqrt PI * sqrt (u + INR k) * (mfp / sqrt PI * sqrt (u + INR k))) with (mfp * mfp * (sqrt (u + INR k) * sqrt (u + INR k)) / (sqrt PI * sqrt PI))
      by (field; apply Rgt_not_eq, sqrt_lt_R0; exact HP).
    rewrite !sqrt_sqrt by lra. field. lra.
  - replace (n + w + w)%nat with (n + 2 * w)%nat in E by lia. unfold sampled_path in E.
    assert (L : average (fun u => mfp * u) (mfp / 2)).
    { refine (average_is _ _ _ _ (average_line mfp 0) _ _); [field|intros; ring]. }
    assert (K : average (fun _ => mfp) mfp).
    { refine (average_is _ _ _ _ (average_line 0 mfp) _ _); [field|intros; ring]. }
    destruct (o_mean_free_path_model options), (p_first_step p); toR.
    + refine (average_ext _ _ _ _ L). intros u _. rewrite E, Hg. cbn [bcg_mfp]. rewrite with_number_same. reflexivity.
    + refine (average_ext _ _ _ _ K). intros u _. rewrite E, Hg. reflexivity.
    + exists (fun v => mfp * v). split; [exact L|]. intros v. refine (average_ext _ _ _ _ (average_ln (mfp * v))). intros u _. rewrite E, Hg. cbn [bcg_mfp].
      rewrite with_number_same, with_number_other, with_number_same by lia. reflexivity.
    + refine (average_ext _ _ _ _ (average_ln mfp)). intros u _. rewrite E, Hg. cbn [bcg_mfp]. rewrite with_number_same. reflexivity.
    + refine (average_ext _ _ _ _ L). intros u _. rewrite E, Hg. cbn [bcg_mfp]. rewrite with_number_same. reflexivity.
    + refine (average_ext _ _ _ _ K). intros u _. rewrite E, Hg. reflexivity.
Qed.
Print Assumptions C129_averages.
(** Averages are unique. *)
Theorem C129_averages_are_values :
  forall f v v', average f v -> average f v' -> v = v'.
Proof.
  intros f v v' H H'. exact (eq_trans (eq_sym (is_RInt_gen_unique _ _ H)) (is_RInt_gen_unique _ _ H')).
Qed.
Print Assumptions C129_averages_are_values.
Example C129_applies :
  g_get_densities (mat_geometry (r_material 1 1)) 5 0 0 = Ok [1] /\ 0 < Rsum [1] /\
  o_high_energy_free_flight_paths r_options = false /\ (0 < S (o_weak_collision_order r_options))%nat.
Proof. split; [reflexivity|]. split; [cbn; lra|]. split; [reflexivity|lia]. Qed.
