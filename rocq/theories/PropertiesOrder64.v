(** * PropertiesOrder64.v - C111: flat targets and spheres for every double *)
From Coq Require Import ZArith List Bool Lia Reals Lra Floats.SpecFloat.
From Flocq Require Import Core BinarySingleNaN.
From Verif Require Import Num NumSF NumB ModelTypes ModelConsts ModelGeometry ProofsBase ProofsFloat SpecFloat64 SpecOrder64
  ProofsChoose64 ProofsSampling64 ProofsOrder64 ToyRounding.
Import ListNotations.
Open Scope R_scope.

(** Every double - infinities and NaN included - has exactly one layer, and
    all lookups use it. *)
Theorem C111_every_double_has_its_layer :
  forall lm (input : Mesh1DInput f64) (g : Mesh1D f64), @mesh1d_new f64 (NumB lm) input = Ok g ->
  let G := @mesh1d_geometry f64 (NumB lm) g in
  forall x y z : f64, exists i l,
    nth_error (m1_layers g) i = Some l /\
    g_get_densities G x y z = Ok (l_densities l) /\
    g_get_concentrations G x y z = Ok (l_concentrations l) /\
    g_get_ck G x y z = Ok (l_ck l) /\
    g_get_total_density G x y z = Ok (fold_left (Bplus mode_NE) (l_densities l) (B754_zero false)) /\
    (g_inside G x y z = true -> in_layer64 l x /\
       forall j l', nth_error (m1_layers g) j = Some l' -> in_layer64 l' x -> j = i) /\
    (Bltb x (B754_zero false) = true -> i = 0%nat) /\
    (Bleb (m1_bottom g) x = true -> S i = length (m1_layers g)).
Proof.
  intros lm input g H G x y z. destruct (select64 lm input g x H) as (i & l & Hs & Hn & H1 & H2 & H3). exists i, l. split; [exact Hn|].
  destruct (mesh1d_new_inv64 lm input g H) as (u & rows & first & last & _ & Ht & _).
  pose proof (zero64 lm) as Z0. unfold NBc in Z0.
  unfold G. cbn [mesh1d_geometry g_get_densities g_get_concentrations g_get_ck g_get_total_density g_inside].
  unfold NB in Hs. rewrite Hs. cbn [bind]. split; [reflexivity|]. split; [reflexivity|]. split; [reflexivity|].
  split; [unfold nsum; rewrite Z0; reflexivity|]. split; [|split; [|exact H3]].
  - intro Hi. destruct (H1 Hi) as [C U]. unfold layer_contains in C. apply andb_prop in C. split; [exact C|].
    intros j l' Hj [A B]. apply (U j l' Hj). unfold layer_contains. apply andb_true_intro. split; assumption.
  - intro K. apply H2. rewrite Ht. unfold NB. rewrite Z0. exact K.
Qed.
Print Assumptions C111_every_double_has_its_layer.

(** The surfaces between layers: what is accepted tiles the target without
    gaps or overlaps, however thin the layers - one too thin to be represented
    is refused. *)
Theorem C111_layers_tile_the_target :
  forall lm (input : Mesh1DInput f64) (g : Mesh1D f64), @mesh1d_new f64 (NumB lm) input = Ok g ->
    (forall i l, nth_error (m1_layers g) i = Some l -> Bltb (l_top l) (l_bottom l) = true) /\
    (forall i l l', nth_error (m1_layers g) i = Some l -> nth_error (m1_layers g) (S i) = Some l' -> l_bottom l = l_top l') /\
    (forall l, nth_error (m1_layers g) 0 = Some l -> l_top l = B754_zero false) /\
    (forall l, nth_error (m1_layers g) (length (m1_layers g) - 1) = Some l -> l_bottom l = m1_bottom g).
Proof.
  intros lm input g H. destruct (mesh1d_new_inv64 lm input g H) as (u & rows & first & last & Hl & _ & Hf & Hla).
  apply layers_chain64 in Hl. pose proof (zero64 lm) as Z0. unfold NBc in Z0. unfold NB in Hl. rewrite Z0 in Hl. clear Z0 H.
  split; [|split; [|split]].
  - intros i l Hi. apply lt_key. destruct (chain64_in _ _ _ _ _ Hl Hi) as (N1 & N2 & _ & L). auto.
  - clear Hf Hla. induction Hl as [|l0 ls b Hl0 Hc IH]; intros i l l' H1 H2; [destruct i; discriminate|].
    destruct i as [|i]; cbn in H1, H2; [|eapply IH; eassumption]. assert (E : l0 = l) by congruence. rewrite <- E. clear - Hc H2.
    destruct Hc as [|l1 ls1 b1 Hl1 Hc1]; cbn in H2; [discriminate|]. congruence.
  - intros l E. clear Hla. remember (B754_zero false : f64) as o. destruct Hl as [|l0 ls b Hl0 Hc]; cbn in E; [discriminate|]. congruence.
  - intros l E. clear Hf Hla last first. generalize dependent l. induction Hl as [|l0 ls b Hl0 Hc IH]; intros l E; [discriminate|].
    destruct ls as [|l2 ls].
    + cbn in E. inversion Hc. congruence.
    + apply IH. cbn [length] in *. replace (S (S (length ls)) - 1)%nat with (S (S (length ls) - 1)) in E by lia. exact E.
Qed.
Print Assumptions C111_layers_tile_the_target.

(** Zones: with a barrier thickness that is a number and not negative - zero
    and infinity included - the zones are nested at every double. *)
Lemma ten_ok lm : is_finite (@nZ f64 (NumB lm) 10) = true /\ B2R (@nZ f64 (NumB lm) 10) = 10.
Proof. apply (of_lit 10); [apply of_sf_lit|lia]. Qed.
Lemma minus_ten_ok lm : is_finite (@nZ f64 (NumB lm) (-10)) = true /\ B2R (@nZ f64 (NumB lm) (-10)) = -10.
Proof.
  change (@nZ f64 (NumB lm) (-10)) with (of_sf (sf_lit (-10) 0)).
  assert (E : B2SF (of_sf (sf_lit (-10) 0)) = S754_finite true 5629499534213120 (-49)) by (rewrite of_sf_valid; reflexivity).
  split; [rewrite <- is_finite_SF_B2SF, E; reflexivity|]. rewrite <- SF2R_B2SF, E. unfold SF2R, F2R. cbn. lra.
Qed.
Lemma ten_times lm (t : f64) : not_negative t ->
  not_negative (Bmult mode_NE (@nZ f64 (NumB lm) 10) t) /\ key t <= key (Bmult mode_NE (@nZ f64 (NumB lm) 10) t).
Proof.
  intro Ht. destruct (ten_ok lm) as [F E]. destruct (nn_key t Ht) as [Nt Kt].
  destruct (mult_key _ t F ltac:(rewrite E, Rabs_pos_eq; lra) Ht) as [N K]. rewrite E in K.
  assert (L : key t <= key (Bmult mode_NE (@nZ f64 (NumB lm) 10) t)).
  { rewrite K. rewrite <- (clip_key t Nt) at 1. apply clip_mono. lra. }
  split; [|exact L]. apply le_key. split; [reflexivity|]. split; [exact N|]. change (key (B754_zero false)) with 0. lra.
Qed.
Theorem C111_half_space_zones_are_nested :
  forall lm (g : Mesh0D f64), not_negative (m0_energy_barrier_thickness g) -> nested64 (@mesh0d_geometry f64 (NumB lm) g).
Proof.
  intros lm g Ht x y z. cbn [mesh0d_geometry g_inside g_inside_energy_barrier g_inside_simulation_boundary].
  pose proof (zero64 lm) as Z0. unfold NBc in Z0. rewrite Z0. set (t := m0_energy_barrier_thickness g) in *. destruct (nn_key t Ht) as [Nt Kt].
  change (@nlt f64 (NumB lm)) with (@Bltb prec emax). change (@nneg f64 (NumB lm) t) with (Bopp t : f64).
  change (@nmul f64 (NumB lm) (nZ (-10)) t) with (Bmult mode_NE (@nZ f64 (NumB lm) (-10)) t : f64).
  split; intro H.
  - f_equal. apply lt_key in H. destruct H as (_ & Nx & H). apply lt_key. rewrite key_opp. change (key (B754_zero false)) with 0 in H.
    split; [clear - Nt; destruct t; try discriminate Nt; reflexivity|]. split; [exact Nx|]. lra.
  - assert (H' : Bltb (Bopp t) x = true) by congruence. apply lt_key in H'. destruct H' as (_ & Nx & L). rewrite key_opp in L.
    destruct (minus_ten_ok lm) as [F E]. destruct (mult_key _ t F ltac:(rewrite E, Rabs_left; lra) Ht) as [N K]. rewrite E in K.
    apply lt_key. split; [exact N|]. split; [exact Nx|].
    apply Rle_lt_trans with (- key t); [|exact L]. eapply Rle_trans; [right; exact K|].
    rewrite <- key_opp. rewrite <- (clip_key (Bopp t)) by (clear - Nt; destruct t; try discriminate Nt; reflexivity). rewrite key_opp. apply clip_mono. lra.
Qed.
Print Assumptions C111_half_space_zones_are_nested.
Lemma zero_minus (t : f64) : is_nan t = false -> is_nan (Bminus mode_NE b0 t) = false /\ key (Bminus mode_NE b0 t) = - key t.
Proof.
  intro N. destruct (is_finite t) eqn:F.
  - destruct (sub_ok b0 t eq_refl F) as [F1 E1].
    + cbn [B2R]. apply no_overflow with (Babs t). rewrite B2R_Babs, Rminus_0_l, Rabs_Ropp. apply Rle_refl.
    + split; [clear - F1; destruct (Bminus mode_NE b0 t); try discriminate F1; reflexivity|]. rewrite !key_fin by assumption. rewrite E1. cbn [B2R].
      rewrite Rminus_0_l, rd_opp, rd_id. reflexivity.
  - destruct t as [s|[]| |s m e]; try discriminate; split; try reflexivity. symmetry; apply Ropp_involutive.
Qed.
Theorem C111_layered_zones_are_nested :
  forall lm (input : Mesh1DInput f64) (g : Mesh1D f64), @mesh1d_new f64 (NumB lm) input = Ok g ->
    not_negative (m1_top_energy_barrier_thickness g) -> not_negative (m1_bottom_energy_barrier_thickness g) ->
    nested64 (@mesh1d_geometry f64 (NumB lm) g).
Proof.
  intros lm input g H Ht Hb x y z. destruct (mesh1d_new_inv64 lm input g H) as (u & rows & first & last & Hl & Top & Hf & _).
  apply layers_chain64 in Hl.
  assert (Hne : m1_layers g <> []) by (intro E0; rewrite E0 in Hf; discriminate Hf).
  destruct (chain64_le _ _ _ Hl Hne) as (_ & Nb & Lt). pose proof (zero64 lm) as Z0. unfold NBc in Z0. unfold NB in Lt, Top. rewrite Z0 in Lt, Top.
  change (key b0) with 0 in Lt.
  cbn [mesh1d_geometry g_inside g_inside_energy_barrier g_inside_simulation_boundary]. unfold mesh1d_inside. rewrite Top.
  set (t := m1_top_energy_barrier_thickness g) in *. set (s := m1_bottom_energy_barrier_thickness g) in *. set (b := m1_bottom g) in *.
  change (@nlt f64 (NumB lm)) with (@Bltb prec emax). change (@nsub f64 (NumB lm)) with (@Bminus prec emax _ _ mode_NE).
  change (@nadd f64 (NumB lm)) with (@Bplus prec emax _ _ mode_NE). change (@nmul f64 (NumB lm)) with (@Bmult prec emax _ _ mode_NE).
  destruct (nn_key t Ht) as [Nt Kt]. destruct (nn_key s Hb) as [Ns Ks].
  destruct (ten_times lm t Ht) as [Ht10 Lt10]. destruct (ten_times lm s Hb) as [Hs10 Ls10].
  set (t10 := Bmult mode_NE (@nZ f64 (NumB lm) 10) t) in *. set (s10 := Bmult mode_NE (@nZ f64 (NumB lm) 10) s) in *.
  destruct (zero_minus t Nt) as [N1 K1]. destruct (zero_minus t10 (proj1 (nn_key t10 Ht10))) as [N2 K2].
  assert (Hbn : not_negative b) by (apply le_key; split; [reflexivity|]; split; [exact Nb|]; change (key (B754_zero false)) with 0; lra).
  destruct (plus_key b s Hbn Hb) as [N3 K3]. destruct (plus_key b s10 Hbn Hs10) as [N4 K4].
  split; intro K.
  - f_equal. apply andb_prop in K. destruct K as [A B]. apply lt_key in A. apply lt_key in B. destruct A as (_ & Nx & A). destruct B as (_ & _ & B).
    change (key b0) with 0 in A. apply andb_true_intro. split; apply lt_key.
    + split; [exact N1|]. split; [exact Nx|]. rewrite K1. lra.
    + split; [exact Nx|]. split; [exact N3|]. rewrite K3. apply Rlt_le_trans with (key b); [exact B|].
      rewrite <- (clip_key b Nb) at 1. apply clip_mono. lra.
  - assert (K' : (Bltb (Bminus mode_NE b0 t) x && Bltb x (Bplus mode_NE b s))%bool = true) by congruence. clear K.
    apply andb_prop in K'. destruct K' as [A B]. apply lt_key in A. apply lt_key in B. destruct A as (_ & Nx & A). destruct B as (_ & _ & B).
    rewrite K1 in A. rewrite K3 in B. apply andb_true_intro. split; apply lt_key.
    + split; [exact N2|]. split; [exact Nx|]. rewrite K2. lra.
    + split; [exact Nx|]. split; [exact N4|]. rewrite K4. eapply Rlt_le_trans; [exact B|]. apply clip_mono. lra.
Qed.
Print Assumptions C111_layered_zones_are_nested.
Theorem C111_sphere_zones_are_nested :
  forall lm (g : Sphere f64), not_negative (s_radius g) -> not_negative (s_energy_barrier_thickness g) ->
    nested64 (@sphere_geometry f64 (NumB lm) g).
Proof.
  intros lm g Hr Ht x y z. cbn [sphere_geometry g_inside g_inside_energy_barrier g_inside_simulation_boundary].
  set (t := s_energy_barrier_thickness g) in *. set (b := s_radius g) in *. set (r := sphere_r x y z).
  change (@nlt f64 (NumB lm)) with (@Bltb prec emax).
  change (@nadd f64 (NumB lm)) with (@Bplus prec emax _ _ mode_NE). change (@nmul f64 (NumB lm)) with (@Bmult prec emax _ _ mode_NE).
  destruct (nn_key t Ht) as [Nt Kt]. destruct (nn_key b Hr) as [Nb Kb].
  destruct (ten_times lm t Ht) as [Ht10 Lt10]. set (t10 := Bmult mode_NE (@nZ f64 (NumB lm) 10) t) in *.
  destruct (plus_key t b Ht Hr) as [N3 K3]. destruct (plus_key t10 b Ht10 Hr) as [N4 K4].
  split; intro K.
  - f_equal. apply lt_key in K. destruct K as (Nx & _ & K). apply lt_key. split; [exact Nx|]. split; [exact N3|]. rewrite K3.
    apply Rlt_le_trans with (key b); [exact K|]. rewrite <- (clip_key b Nb) at 1. apply clip_mono. lra.
  - assert (K' : Bltb r (Bplus mode_NE t b) = true) by congruence. apply lt_key in K'. destruct K' as (Nx & _ & K'). apply lt_key.
    split; [exact Nx|]. split; [exact N4|]. rewrite K4. rewrite K3 in K'. eapply Rlt_le_trans; [exact K'|]. apply clip_mono. lra.
Qed.
Print Assumptions C111_sphere_zones_are_nested.

(** Non-vacuity: two layers of copper, 10 and 20 angstrom, and the half-space of C105. *)
#[local] Existing Instance toy64.
Definition two_layers64 : Mesh1DInput f64 := {|
  m1i_length_unit := LU_ANGSTROM; m1i_layer_thicknesses := [nZ 10; nZ 20];
  m1i_densities := [[nlit 85 (-3)]; [nlit 5 (-2)]]; m1i_cks := [nZ 1; nZ 1] |}.
Example C111_applies : (exists g, mesh1d_new two_layers64 = Ok g /\ length (m1_layers g) = 2%nat /\
    not_negative (m1_top_energy_barrier_thickness g) /\ not_negative (m1_bottom_energy_barrier_thickness g)) /\
  exists mesh, mesh0d_new copper64_input = Ok mesh /\ not_negative (m0_energy_barrier_thickness mesh).
Proof.
  split.
  - assert (T : match mesh1d_new two_layers64 with Ok g => (Nat.eqb (length (m1_layers g)) 2 && Bleb b0 (m1_top_energy_barrier_thickness g)
        && Bleb b0 (m1_bottom_energy_barrier_thickness g))%bool | _ => false end = true) by (vm_compute; reflexivity).
    destruct (mesh1d_new two_layers64) as [g| |]; [|discriminate T|discriminate T]. apply andb_prop in T. destruct T as [T T3]. apply andb_prop in T. destruct T as [T1 T2].
    exists g. split; [reflexivity|]. split; [apply Nat.eqb_eq; exact T1|]. split; assumption.
  - assert (T : match mesh0d_new copper64_input with Ok g => Bleb b0 (m0_energy_barrier_thickness g) | _ => false end = true) by (vm_compute; reflexivity).
    destruct (mesh0d_new copper64_input) as [g| |]; [|discriminate T|discriminate T]. exists g. split; [reflexivity|exact T].
Qed.
