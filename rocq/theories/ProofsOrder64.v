(** * ProofsOrder64.v - the order of the doubles, infinities included, and layers and zones in it (C111) *)
From Coq Require Import ZArith List Bool Lia Reals Lra Floats.SpecFloat.
From Flocq Require Import Core BinarySingleNaN.
From Verif Require Import Num NumSF NumB ModelTypes ModelConsts ModelGeometry ProofsBase ProofsFloat SpecFloat64.
Import ListNotations.
Open Scope R_scope.

(** Where a double lies on the line; NaN nowhere. *)
Definition key (x : f64) : R :=
  match x with B754_infinity false => bpow radix2 emax | B754_infinity true => - bpow radix2 emax | _ => B2R x end.
Lemma key_fin x : is_finite x = true -> key x = B2R x.
Proof. destruct x as [s|s| |s m e]; try discriminate; reflexivity. Qed.
Lemma key_bound x : is_finite x = true -> - bpow radix2 emax < key x < bpow radix2 emax.
Proof. intro H. rewrite key_fin by exact H. apply Rabs_lt_inv. apply below_max. Qed.
Lemma huge_pos : 0 < bpow radix2 emax.
Proof. apply bpow_gt_0. Qed.
Lemma lt_key (x y : f64) : Bltb x y = true <-> is_nan x = false /\ is_nan y = false /\ key x < key y.
Proof.
  pose proof huge_pos as HP.
  destruct (is_finite x) eqn:Fx; [pose proof (key_bound x Fx) as Kx|]; (destruct (is_finite y) eqn:Fy; [pose proof (key_bound y Fy) as Ky|]).
  - rewrite lt_fin by assumption. rewrite !key_fin by assumption.
    destruct x as [s|s| |s m e]; try discriminate Fx; destruct y as [s'|s'| |s' m' e']; try discriminate Fy; cbn [is_nan]; tauto.
  - destruct x as [s|s| |s m e]; try discriminate Fx; destruct y as [s'|[]| |s' m' e']; try discriminate Fy; cbn [is_nan key] in *;
      (split; [try discriminate; intros _; repeat split; lra|intros (H1 & H2 & H3); try discriminate; try lra; try (destruct s; reflexivity); reflexivity]).
  - destruct x as [s|[]| |s m e]; try discriminate Fx; destruct y as [s'|[]| |s' m' e']; try discriminate Fy; cbn [is_nan key] in *;
      (split; [try discriminate; intros _; repeat split; lra|intros (H1 & H2 & H3); try discriminate; try lra; try (destruct s'; reflexivity); reflexivity]).
  - destruct x as [s|[]| |s m e]; try discriminate Fx; destruct y as [s'|[]| |s' m' e']; try discriminate Fy; cbn [is_nan key] in *;
      (split; [try discriminate; intros _; repeat split; lra|intros (H1 & H2 & H3); try discriminate; try lra; reflexivity]).
Qed.
Lemma le_key (x y : f64) : Bleb x y = true <-> is_nan x = false /\ is_nan y = false /\ key x <= key y.
Proof.
  pose proof huge_pos as HP.
  destruct (is_finite x) eqn:Fx; [pose proof (key_bound x Fx) as Kx|]; (destruct (is_finite y) eqn:Fy; [pose proof (key_bound y Fy) as Ky|]).
  - rewrite le_fin by assumption. rewrite !key_fin by assumption.
    destruct x as [s|s| |s m e]; try discriminate Fx; destruct y as [s'|s'| |s' m' e']; try discriminate Fy; cbn [is_nan]; tauto.
  - destruct x as [s|s| |s m e]; try discriminate Fx; destruct y as [s'|[]| |s' m' e']; try discriminate Fy; cbn [is_nan key] in *;
      (split; [try discriminate; intros _; repeat split; lra|intros (H1 & H2 & H3); try discriminate; try lra; try (destruct s; reflexivity); reflexivity]).
  - destruct x as [s|[]| |s m e]; try discriminate Fx; destruct y as [s'|[]| |s' m' e']; try discriminate Fy; cbn [is_nan key] in *;
      (split; [try discriminate; intros _; repeat split; lra|intros (H1 & H2 & H3); try discriminate; try lra; try (destruct s'; reflexivity); reflexivity]).
  - destruct x as [s|[]| |s m e]; try discriminate Fx; destruct y as [s'|[]| |s' m' e']; try discriminate Fy; cbn [is_nan key] in *;
      (split; [try discriminate; intros _; repeat split; lra|intros (H1 & H2 & H3); try discriminate; try lra; reflexivity]).
Qed.
Lemma lt_false x y : is_nan x = false -> is_nan y = false -> Bltb x y = false -> key y <= key x.
Proof.
  intros Hx Hy H. destruct (Rle_lt_dec (key y) (key x)) as [L|L]; [exact L|]. exfalso.
  assert (K : Bltb x y = true) by (apply lt_key; auto). congruence.
Qed.
Lemma le_false x y : is_nan x = false -> is_nan y = false -> Bleb x y = false -> key y < key x.
Proof.
  intros Hx Hy H. destruct (Rlt_le_dec (key y) (key x)) as [L|L]; [exact L|]. exfalso.
  assert (K : Bleb x y = true) by (apply le_key; auto). congruence.
Qed.
Lemma nan_lt_l (x y : f64) : is_nan x = true -> Bltb x y = false.
Proof. destruct x; try discriminate; reflexivity. Qed.
Lemma nan_lt_r (x y : f64) : is_nan y = true -> Bltb x y = false.
Proof. destruct y; try discriminate; destruct x as [|[]| |[]]; reflexivity. Qed.
Lemma key_opp x : key (Bopp x) = - key x.
Proof. destruct x as [s|[]| |s m e]; cbn [Bopp key negb]; try (rewrite ?Ropp_involutive; reflexivity); try (cbn [B2R]; lra). exact (B2R_Bopp _ _ (B754_finite s m e e0)). Qed.

(** ** Layers *)
Section Layers.
Context (lm : LibmB).
#[local] Instance NB : Num f64 := NumB lm.
Inductive chain64 : f64 -> list (Layer1D f64) -> f64 -> Prop :=
| chain64_nil : forall a : f64, chain64 a [] a
| chain64_cons : forall (l : Layer1D f64) (ls : list (Layer1D f64)) (b : f64), Bltb (l_top l) (l_bottom l) = true -> chain64 (l_bottom l) ls b -> chain64 (l_top l) (l :: ls) b.
Lemma layers_chain64 u : forall rows top layers bottom,
  mesh1d_layers u top top rows = Ok (layers, bottom) -> chain64 top layers bottom.
Proof.
  induction rows as [|[[t ds] ck] rows IH]; intros top layers bottom H; cbn [mesh1d_layers] in H.
  - assert (E : (@nil (Layer1D f64), top) = (layers, bottom)) by congruence. pose proof (f_equal fst E) as E1. pose proof (f_equal snd E) as E2. cbn [fst snd] in E1, E2. subst. constructor.
  - unfold layer1d_new in H. apply bind_ok in H. destruct H as (l & Hl & H).
    apply bind_ok in Hl. destruct Hl as (? & Ha & Hl). apply rassert_ok in Ha.
    apply bind_ok in H. destruct H as ([ls b] & Hls & H).
    assert (E : (l :: ls, b) = (layers, bottom)) by congruence. pose proof (f_equal fst E) as E1. pose proof (f_equal snd E) as E2. cbn [fst snd] in E1, E2. subst layers bottom.
    apply IH in Hls. assert (I : forall x y : Layer1D f64, Ok x = Ok y -> x = y) by congruence. apply I in Hl. subst l.
    match goal with |- chain64 _ (?l :: _) _ => change top with (l_top l) end. constructor; assumption.
Qed.
Lemma chain64_le a ls b : chain64 a ls b -> ls <> [] -> is_nan a = false /\ is_nan b = false /\ key a < key b.
Proof.
  induction 1 as [|l ls b Hl Hc IH]; intros Hne; [congruence|]. apply lt_key in Hl. destruct Hl as (N1 & N2 & L).
  destruct ls as [|l2 ls]; [inversion Hc; subst; auto|]. destruct IH as (M1 & M2 & L2); [discriminate|]. repeat split; try assumption. lra.
Qed.
Lemma chain64_in a ls b i l : chain64 a ls b -> nth_error ls i = Some l ->
  is_nan (l_top l) = false /\ is_nan (l_bottom l) = false /\ key a <= key (l_top l) /\ key (l_top l) < key (l_bottom l).
Proof.
  intro H. revert i. induction H as [|l0 ls b Hl Hc IH]; intros i Hn; [destruct i; discriminate|]. apply lt_key in Hl. destruct Hl as (N1 & N2 & L).
  destruct i as [|i]; cbn in Hn.
  - assert (El : l0 = l) by congruence. subst l0. repeat split; try assumption; try apply Rle_refl.
  - apply IH in Hn. destruct Hn as (M1 & M2 & L1 & L2). repeat split; try assumption. lra.
Qed.
Lemma chain64_tiles (a : f64) ls (b x : f64) : chain64 a ls b -> is_nan x = false -> key a < key x <= key b ->
  exists i l, nth_error ls i = Some l /\ layer_contains l x = true /\ find (fun l => layer_contains l x) ls = Some l /\
    (forall j l', nth_error ls j = Some l' -> layer_contains l' x = true -> j = i).
Proof.
  intros Hc Nx. induction Hc as [a|l ls b Hl Hc IH]; intros Hx; [lra|]. apply lt_key in Hl. destruct Hl as (N1 & N2 & L).
  cbn [find]. destruct (layer_contains l x) eqn:E.
  - exists 0%nat, l. split; [reflexivity|]. split; [exact E|]. split; [reflexivity|].
    intros [|j] l' Hn Hb; [reflexivity|]. cbn in Hn. destruct (chain64_in _ _ _ _ _ Hc Hn) as (M1 & M2 & L1 & L2).
    unfold layer_contains in E, Hb. apply andb_prop in E. destruct E as [_ E]. apply andb_prop in Hb. destruct Hb as [Hb _].
    apply le_key in E. apply lt_key in Hb. lra.
  - assert (G : key (l_bottom l) < key x).
    { unfold layer_contains in E. apply andb_false_iff in E. destruct E as [E|E].
      - apply lt_false in E; auto. lra.
      - apply le_false in E; auto. }
    destruct IH as (i & l0 & Hn & Hc0 & Hf & Hu); [lra|]. exists (S i), l0. split; [exact Hn|]. split; [exact Hc0|]. split; [exact Hf|].
    intros [|j] l' Hn' Hb; [|f_equal; eapply Hu; eassumption]. cbn in Hn'. exfalso. assert (El : l = l') by (cbn in Hn'; congruence). rewrite <- El in Hb. exact (eq_true_false_abs _ Hb E).
Qed.
Lemma mesh1d_new_inv64 input (g : Mesh1D f64) : mesh1d_new input = Ok g ->
  exists u rows first last,
    mesh1d_layers u (nZ 0) (nZ 0) rows = Ok (m1_layers g, m1_bottom g) /\ m1_top g = nZ 0 /\
    nth_error (m1_layers g) 0 = Some first /\ nth_error (m1_layers g) (length (m1_layers g) - 1) = Some last.
Proof.
  unfold mesh1d_new. intros H.
  apply bind_ok in H. destruct H as (u & Hu & H).
  apply bind_ok in H. destruct H as (? & _ & H).
  apply bind_ok in H. destruct H as (? & _ & H).
  apply bind_ok in H. destruct H as ([layers bottom] & Hl & H).
  apply bind_ok in H. destruct H as (first & Hf & H). apply bind_ok in H. destruct H as (last & Hla & H).
  assert (I : forall x y : Mesh1D f64, Ok x = Ok y -> x = y) by congruence. apply I in H. subst g.
  exists u. eexists. exists first, last. cbn [m1_layers m1_bottom m1_top]. split; [exact Hl|]. split; [reflexivity|].
  split; [apply idx_ok; exact Hf|apply idx_ok; exact Hla].
Qed.
Lemma select64 input (g : Mesh1D f64) (x : f64) : mesh1d_new input = Ok g -> exists i l,
  mesh1d_select g x = Ok l /\ nth_error (m1_layers g) i = Some l /\
  (mesh1d_inside g x = true -> layer_contains l x = true /\ forall j l', nth_error (m1_layers g) j = Some l' -> layer_contains l' x = true -> j = i) /\
  (Bltb x (m1_top g) = true -> i = 0%nat) /\ (Bleb (m1_bottom g) x = true -> S i = length (m1_layers g)).
Proof.
  intro H. destruct (mesh1d_new_inv64 _ _ H) as (u & rows & first & last & Hl & Ht & Hf & Hla). apply layers_chain64 in Hl.
  assert (Hne : m1_layers g <> []) by (intro E0; rewrite E0 in Hf; discriminate Hf).
  destruct (chain64_le _ _ _ Hl Hne) as (N0 & Nb & Lt).
  assert (Hlen : (0 < length (m1_layers g))%nat) by (destruct (m1_layers g); [congruence|apply Nat.lt_0_succ]).
  unfold mesh1d_select. destruct (mesh1d_inside g x) eqn:Ei.
  - unfold mesh1d_inside in Ei. apply andb_prop in Ei. destruct Ei as [E1 E2]. apply lt_key in E1. apply lt_key in E2. rewrite Ht in E1.
    destruct E1 as (_ & Nx & L1). destruct E2 as (_ & _ & L2).
    destruct (chain64_tiles _ _ _ x Hl Nx) as (i & l & Hn & Hc & Hfi & Hu); [lra|].
    exists i, l. rewrite Hfi. split; [reflexivity|]. split; [exact Hn|]. split; [auto|]. rewrite Ht. split.
    + intro K. apply lt_key in K. lra.
    + intro K. apply le_key in K. lra.
  - destruct (nlt x (m1_top g)) eqn:E.
    + exists 0%nat, first. unfold idx. rewrite Hf. split; [reflexivity|]. split; [reflexivity|]. split; [discriminate|]. split; [reflexivity|].
      intro K. apply le_key in K. change (Bltb x (m1_top g) = true) in E. apply lt_key in E. rewrite Ht in E. lra.
    + exists (length (m1_layers g) - 1)%nat, last. unfold idx. rewrite Hla. split; [reflexivity|]. split; [reflexivity|]. split; [discriminate|]. split; [|lia].
      intro K. change (Bltb x (m1_top g) = false) in E. congruence.
Qed.
End Layers.

(** ** Sums and multiples of non-negative doubles, infinity included *)
Definition clip (r : R) : R := Rmax (- bpow radix2 emax) (Rmin (rd r) (bpow radix2 emax)).
Lemma clip_mono r s : r <= s -> clip r <= clip s.
Proof. intro H. apply rd_mono in H. unfold clip. apply Rle_max_compat_l. apply Rle_min_compat_r. exact H. Qed.
Lemma rd_huge : rd (bpow radix2 emax) = bpow radix2 emax.
Proof. apply rd_bpow. unfold emax. lia. Qed.
Lemma clip_mid r : Rlt_bool (Rabs (rd r)) (bpow radix2 emax) = true -> clip r = rd r.
Proof.
  intro H. destruct (Rlt_bool_spec (Rabs (rd r)) (bpow radix2 emax)) as [L|L]; [|discriminate]. apply Rabs_lt_inv in L.
  unfold clip. rewrite Rmin_left by lra. rewrite Rmax_right by lra. reflexivity.
Qed.
Lemma clip_big r : bpow radix2 emax <= rd r -> clip r = bpow radix2 emax.
Proof. intro H. pose proof huge_pos. unfold clip. rewrite Rmin_right by lra. rewrite Rmax_right by lra. reflexivity. Qed.
Lemma clip_low r : rd r <= - bpow radix2 emax -> clip r = - bpow radix2 emax.
Proof. intro H. pose proof huge_pos. unfold clip. rewrite Rmin_left by lra. rewrite Rmax_left by lra. reflexivity. Qed.
Lemma clip_key (x : f64) : is_nan x = false -> clip (key x) = key x.
Proof.
  intro N. destruct (is_finite x) eqn:F.
  - rewrite key_fin by exact F. rewrite clip_mid; [apply rd_id|]. rewrite rd_id. apply Rlt_bool_true. apply below_max.
  - destruct x as [s|[]| |s m e]; try discriminate; cbn [key].
    + apply clip_low. rewrite rd_opp, rd_huge. lra.
    + apply clip_big. rewrite rd_huge. lra.
Qed.
Lemma nn_key (x : f64) : not_negative x -> is_nan x = false /\ 0 <= key x.
Proof. intro H. apply le_key in H. destruct H as (_ & N & H). split; [exact N|exact H]. Qed.
Lemma sign_neg (x : f64) : is_finite x = true -> Bsign x = true -> B2R x <= 0.
Proof.
  destruct x as [s|s| |s m e]; try discriminate; cbn [Bsign]; intros _ ->; cbn [B2R]; [lra|].
  apply F2R_le_0. cbn. lia.
Qed.
Lemma plus_key (a b : f64) : not_negative a -> not_negative b ->
  is_nan (Bplus mode_NE a b) = false /\ key (Bplus mode_NE a b) = clip (key a + key b).
Proof.
  intros Ha Hb. pose proof huge_pos as HP. destruct (nn_key a Ha) as [Na Ka]. destruct (nn_key b Hb) as [Nb Kb].
  destruct (is_finite a) eqn:Fa; [destruct (is_finite b) eqn:Fb|].
  - rewrite (key_fin a Fa) in *. rewrite (key_fin b Fb) in *. pose proof (Bplus_correct prec emax _ _ mode_NE a b Fa Fb) as K. cbv zeta in K.
    destruct (Rlt_bool (Rabs (rd (B2R a + B2R b))) (bpow radix2 emax)) eqn:E.
    + pose proof E as E'. unfold rd in E. rewrite E in K. destruct K as (K1 & K2 & _). fold (rd (B2R a + B2R b)) in K1.
      split; [clear - K2; destruct (Bplus mode_NE a b); try discriminate; reflexivity|]. rewrite key_fin by exact K2. rewrite clip_mid by exact E'. exact K1.
    + pose proof E as E'. unfold rd in E. rewrite E in K. destruct K as (K1 & K2).
      destruct (Rlt_bool_spec (Rabs (rd (B2R a + B2R b))) (bpow radix2 emax)) as [L|L]; [discriminate|].
      rewrite Rabs_pos_eq in L by (apply rd_nonneg; lra).
      assert (S : Bsign a = false).
      { destruct (Bsign a) eqn:S; [|reflexivity]. exfalso. pose proof (sign_neg a Fa S). pose proof (sign_neg b Fb (eq_sym K2)).
        replace (B2R a + B2R b) with 0 in L by lra. rewrite rd_0 in L. lra. }
      rewrite S in K1. cbn in K1. rewrite clip_big by exact L.
      destruct (Bplus mode_NE a b) as [s|s| |s m e]; try discriminate K1. cbn in K1. assert (s = false) by congruence. subst. split; reflexivity.
  - destruct b as [s|[]| |s m e]; try discriminate.
    rewrite (clip_big (key a + key (B754_infinity false))); [destruct a as [s|[]| |s m e]; try discriminate Fa; split; reflexivity|].
    rewrite <- rd_huge. apply rd_mono. cbn [key]. lra.
  - destruct a as [s|[]| |s m e]; try discriminate.
    rewrite (clip_big (key (B754_infinity false) + key b)).
    + destruct b as [s|[]| |s m e]; try discriminate Nb; try (split; reflexivity). exfalso. cbn [key] in Kb. lra.
    + rewrite <- rd_huge. apply rd_mono. cbn [key]. lra.
Qed.
Lemma mult_key (c t : f64) : is_finite c = true -> 1 <= Rabs (B2R c) -> not_negative t ->
  is_nan (Bmult mode_NE c t) = false /\ key (Bmult mode_NE c t) = clip (B2R c * key t).
Proof.
  intros Fc Hc Ht. pose proof huge_pos as HP. destruct (nn_key t Ht) as [Nt Kt].
  destruct (is_finite t) eqn:Ft.
  - rewrite (key_fin t Ft) in *. pose proof (Bmult_correct prec emax _ _ mode_NE c t) as K. cbv zeta in K.
    destruct (Rlt_bool (Rabs (rd (B2R c * B2R t))) (bpow radix2 emax)) eqn:E.
    + pose proof E as E'. unfold rd in E. rewrite E in K. destruct K as (K1 & K2 & _). fold (rd (B2R c * B2R t)) in K1. rewrite Fc, Ft in K2.
      split; [clear - K2; destruct (Bmult mode_NE c t); try discriminate; reflexivity|]. rewrite key_fin by exact K2. rewrite clip_mid by exact E'. exact K1.
    + pose proof E as E'. unfold rd in E. rewrite E in K.
      destruct (Rlt_bool_spec (Rabs (rd (B2R c * B2R t))) (bpow radix2 emax)) as [L|L]; [discriminate|].
      assert (St : Bsign t = false).
      { destruct (Bsign t) eqn:S; [|reflexivity]. exfalso. pose proof (sign_neg t Ft S).
        replace (B2R c * B2R t) with 0 in L by (replace (B2R t) with 0 by lra; ring). rewrite rd_0, Rabs_R0 in L. lra. }
      rewrite St, xorb_false_r in K.
      assert (Sc : if Bsign c then B2R c < 0 else 0 < B2R c).
      { destruct c as [s|s| |s m e]; try discriminate; cbn [Bsign]; [exfalso; cbn [B2R] in Hc; rewrite Rabs_R0 in Hc; lra|].
        destruct s; [apply F2R_lt_0|apply F2R_gt_0]; cbn; lia. }
      destruct (Bmult mode_NE c t) as [s|s| |s m e]; cbn in K; try discriminate K. assert (s = Bsign c) by congruence. subst s.
      split; [reflexivity|]. destruct (Bsign c); cbn [key].
      * symmetry. apply clip_low. assert (N : rd (B2R c * B2R t) <= 0) by (rewrite <- rd_0; apply rd_mono; nra).
        rewrite Rabs_left1 in L by exact N. lra.
      * symmetry. apply clip_big. assert (N : 0 <= rd (B2R c * B2R t)) by (rewrite <- rd_0; apply rd_mono; nra).
        rewrite Rabs_pos_eq in L by exact N. exact L.
  - destruct t as [s|[]| |s m e]; try discriminate. cbn [key].
    destruct c as [s|s| |s m e]; try discriminate; [exfalso; cbn [B2R] in Hc; rewrite Rabs_R0 in Hc; lra|].
    assert (E : Bmult mode_NE (B754_finite s m e e0) (B754_infinity false) = B754_infinity s :> f64) by (destruct s; reflexivity).
    split; [rewrite E; reflexivity|]. transitivity (key (B754_infinity s)); [f_equal; exact E|].
    set (c := B2R (B754_finite s m e e0)) in *. assert (Sc : if s then c < 0 else 0 < c).
    { unfold c. destruct s; [apply F2R_lt_0|apply F2R_gt_0]; cbn; lia. }
    destruct s; cbn [key]; symmetry.
    + apply clip_low. rewrite <- rd_huge at 2. rewrite <- rd_opp. apply rd_mono. rewrite Rabs_left in Hc by lra. nra.
    + apply clip_big. rewrite <- rd_huge at 1. apply rd_mono. rewrite Rabs_pos_eq in Hc by lra. nra.
Qed.
