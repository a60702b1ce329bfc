(** * ProofsHist.v - the histograms *)
From Coq Require Import ZArith List Bool Lia Reals Lra.
From Verif Require Import Num NumR ModelTypes ModelConsts ModelParticle ModelOutput ProofsBase SpecRun ProofsRun.
Import ListNotations.
Open Scope nat_scope.

(** ** never out of bounds, for any number type *)
Section Safe.
  Context {F : Type} {NF : Num F}.
  Definition shape (d : DistOptions F) (di : Distributions F) : Prop :=
    di_energies di = linspace (d_energy_min d) (d_energy_max d) (d_energy_num d) /\
    di_angles di = linspace (d_angle_min d) (d_angle_max d) (d_angle_num d) /\
    di_x_range di = linspace (d_x_min d) (d_x_max d) (d_x_num d) /\
    di_y_range di = linspace (d_y_min d) (d_y_max d) (d_y_num d) /\
    di_z_range di = linspace (d_z_min d) (d_z_max d) (d_z_num d) /\
    length (di_reflected_ead di) = d_energy_num d /\ Forall (fun r => length r = d_angle_num d) (di_reflected_ead di) /\
    length (di_sputtered_ead di) = d_energy_num d /\ Forall (fun r => length r = d_angle_num d) (di_sputtered_ead di) /\
    length (di_implanted_x di) = d_x_num d /\ length (di_implanted_y di) = d_y_num d /\ length (di_implanted_z di) = d_z_num d /\
    length (di_electronic_energy_loss_x di) = d_x_num d /\ length (di_nuclear_energy_loss_x di) = d_x_num d.
  Definition enough_bins (d : DistOptions F) : Prop :=
    2 <= d_energy_num d /\ 2 <= d_angle_num d /\ 2 <= d_x_num d /\ 2 <= d_y_num d /\ 2 <= d_z_num d.
  Lemma linspace_length (a b : F) n : length (linspace a b n) = n.
  Proof. unfold linspace. rewrite map_length, seq_length. reflexivity. Qed.
  Lemma axis_total (a b : F) n : 2 <= n -> exists r, axis (linspace a b n) = Ok r.
  Proof.
    intros H. unfold axis. destruct (idx_lt (linspace a b n) 1) as (r1 & ->); [rewrite linspace_length; lia|].
    destruct (idx_lt (linspace a b n) 0) as (r0 & ->); [rewrite linspace_length; lia|]. cbn. eauto.
  Qed.
  Lemma bin_floor_total (a b : F) n v : 2 <= n -> exists i, bin_floor (linspace a b n) v = Ok i.
  Proof. intros H. unfold bin_floor. destruct (axis_total a b n H) as ((r0 & dl) & ->). cbn. eauto. Qed.
  Lemma bin_cast_total (a b : F) n v : 2 <= n -> exists i, bin_cast (linspace a b n) v = Ok i.
  Proof. intros H. unfold bin_cast. destruct (axis_total a b n H) as ((r0 & dl) & ->). cbn. eauto. Qed.
  Lemma in_bins_lt i n : in_bins i n = true -> Z.to_nat i < n /\ (0 <= i)%Z.
  Proof. unfold in_bins. intros H. apply andb_prop in H. destruct H as (H1 & H2). apply Z.leb_le in H1. apply Z.ltb_lt in H2. lia. Qed.
  Lemma add_at_ok (v : list F) : forall i x, i < length v -> exists w, add_at v i x = Ok w /\ length w = length v.
  Proof.
    induction v as [|n v IH]; intros i x Hi; cbn in Hi; [lia|]. destruct i as [|i]; cbn; [eexists; split; reflexivity|].
    destruct (IH i x ltac:(lia)) as (w & -> & Hw). cbn. eexists. split; [reflexivity|]. cbn. lia.
  Qed.
  Lemma increment2_ok v n : forall i j, i < length v -> Forall (fun r => length r = n) v -> j < n ->
    exists w, increment2 v i j = Ok w /\ length w = length v /\ Forall (fun r => length r = n) w.
  Proof.
    induction v as [|r v IH]; intros i j Hi Hf Hj; cbn in Hi; [lia|]. inversion Hf; subst. destruct i as [|i]; cbn.
    - destruct (increment_ok r j Hj) as (w & -> & Hw). cbn. eexists. split; [reflexivity|]. split; [reflexivity|]. constructor; auto.
    - destruct (IH i j ltac:(lia) H2 Hj) as (w & -> & Hw & Hwf). cbn. eexists. split; [reflexivity|]. split; [cbn; lia|]. constructor; auto.
  Qed.
  Lemma count_in_ok v i n : length v = n -> exists w, count_in v i n = Ok w /\ length w = n.
  Proof.
    intros H. unfold count_in. destruct (in_bins i n) eqn:E; [|eauto]. apply in_bins_lt in E.
    destruct (increment_ok v (Z.to_nat i) ltac:(lia)) as (w & -> & Hw). exists w. split; [auto|lia].
  Qed.
  Lemma add_loss_safe d units n di el : enough_bins d -> shape d di -> exists di', add_loss units n di el = Ok di' /\ shape d di'.
  Proof.
    intros (_ & _ & Hx & _) Hs. pose proof Hs as (S1 & S2 & S3 & S4 & S5 & S6 & S7 & S8 & S9 & S10 & S11 & S12 & S13 & S14).
    unfold add_loss. cbv zeta. rewrite S3. destruct (axis_total (d_x_min d) (d_x_max d) (d_x_num d) Hx) as ((r0 & dl) & ->). cbn [bind].
    match goal with |- context [bin_cast ?l ?v] => destruct (bin_cast_total (d_x_min d) (d_x_max d) (d_x_num d) v Hx) as (i & ->) end. cbn [bind].
    rewrite linspace_length. destruct (in_bins i (d_x_num d)) eqn:E; [|eauto]. apply in_bins_lt in E.
    match goal with |- context [add_at (di_electronic_energy_loss_x di) _ ?v] => destruct (add_at_ok (di_electronic_energy_loss_x di) (Z.to_nat i) v ltac:(lia)) as (w1 & -> & W1) end.
    match goal with |- context [add_at (di_nuclear_energy_loss_x di) _ ?v] => destruct (add_at_ok (di_nuclear_energy_loss_x di) (Z.to_nat i) v ltac:(lia)) as (w2 & -> & W2) end.
    cbn [bind]. eexists. split; [reflexivity|]. unfold shape; cbn. repeat split; auto; lia.
  Qed.
  Lemma add_losses_safe d units n els : enough_bins d -> forall di, shape d di -> exists di', add_losses units n di els = Ok di' /\ shape d di'.
  Proof.
    intros He. induction els as [|el els IH]; intros di Hs; cbn [add_losses]; [eauto|].
    destruct (add_loss_safe d units n di el He Hs) as (d1 & -> & S1). cbn [bind]. auto.
  Qed.
  Lemma update_safe d options units n di p : enough_bins d -> shape d di -> exists di', distributions_update options units n di p = Ok di' /\ shape d di'.
  Proof.
    intros He Hs. pose proof Hs as (S1 & S2 & S3 & S4 & S5 & S6 & S7 & S8 & S9 & S10 & S11 & S12 & S13 & S14).
    pose proof He as (He1 & He2 & He3 & He4 & He5). unfold distributions_update.
    destruct (energy_angle_from_particle p units) as (en & an). rewrite S1, S2, S3, S4, S5, !linspace_length.
    destruct (bin_floor_total (d_energy_min d) (d_energy_max d) _ en He1) as (ei & ->). cbn [bind].
    destruct (bin_floor_total (d_angle_min d) (d_angle_max d) _ an He2) as (ai & ->). cbn [bind]. cbv zeta.
    set (inside := in_bins ei _ && in_bins ai _).
    assert (Hin : inside = true -> Z.to_nat ei < d_energy_num d /\ Z.to_nat ai < d_angle_num d).
    { intros Ht. apply andb_prop in Ht. destruct Ht as (Ha & Hb). apply in_bins_lt in Ha, Hb. lia. }
    assert (exists w, (if p_incident p && p_left p && inside then increment2 (di_reflected_ead di) (Z.to_nat ei) (Z.to_nat ai) else Ok (di_reflected_ead di)) = Ok w /\ length w = d_energy_num d /\ Forall (fun r => length r = d_angle_num d) w) as (w1 & E1 & L1 & F1).
    { destruct (_ && inside) eqn:E; [|eauto]. apply andb_prop in E. destruct E as (_ & E). apply Hin in E.
      destruct (increment2_ok (di_reflected_ead di) (d_angle_num d) (Z.to_nat ei) (Z.to_nat ai)) as (w & -> & H1 & H2); try (rewrite ?S6, ?S8; tauto); auto. exists w. split; [auto|]. split; [congruence|auto]. }
    rewrite E1. cbn [bind].
    assert (exists w, (if negb (p_incident p) && p_left p && inside then increment2 (di_sputtered_ead di) (Z.to_nat ei) (Z.to_nat ai) else Ok (di_sputtered_ead di)) = Ok w /\ length w = d_energy_num d /\ Forall (fun r => length r = d_angle_num d) w) as (w2 & E2 & L2 & F2).
    { destruct (negb (p_incident p) && p_left p && inside) eqn:E; [|eauto]. apply andb_prop in E. destruct E as (_ & E). apply Hin in E.
      destruct (increment2_ok (di_sputtered_ead di) (d_angle_num d) (Z.to_nat ei) (Z.to_nat ai)) as (w & -> & H1 & H2); try (rewrite ?S6, ?S8; tauto); auto. exists w. split; [auto|]. split; [congruence|auto]. }
    rewrite E2. cbn [bind].
    assert (exists a b c,
      (if p_incident p && p_stopped p then
        let! xi := bin_cast (linspace (d_x_min d) (d_x_max d) (d_x_num d)) (vx (p_pos p) /! ou_length_unit units)%num in
        let! yi := bin_cast (linspace (d_y_min d) (d_y_max d) (d_y_num d)) (vy (p_pos p) /! ou_length_unit units)%num in
        let! zi := bin_cast (linspace (d_z_min d) (d_z_max d) (d_z_num d)) (vz (p_pos p) /! ou_length_unit units)%num in
        let! ix := count_in (di_implanted_x di) xi (d_x_num d) in
        let! iy := count_in (di_implanted_y di) yi (d_y_num d) in
        let! iz := count_in (di_implanted_z di) zi (d_z_num d) in
        Ok (ix, iy, iz)
      else Ok (di_implanted_x di, di_implanted_y di, di_implanted_z di)) = Ok (a, b, c) /\
      length a = d_x_num d /\ length b = d_y_num d /\ length c = d_z_num d) as (a & b & c & E3 & La & Lb & Lc).
    { destruct (p_incident p && p_stopped p); [|do 3 eexists; repeat split; auto].
      match goal with |- context [bin_cast (linspace (d_x_min d) _ _) ?v] => destruct (bin_cast_total (d_x_min d) (d_x_max d) _ v He3) as (xi & ->) end.
      match goal with |- context [bin_cast (linspace (d_y_min d) _ _) ?v] => destruct (bin_cast_total (d_y_min d) (d_y_max d) _ v He4) as (yi & ->) end.
      match goal with |- context [bin_cast (linspace (d_z_min d) _ _) ?v] => destruct (bin_cast_total (d_z_min d) (d_z_max d) _ v He5) as (zi & ->) end.
      cbn [bind]. destruct (count_in_ok (di_implanted_x di) xi _ S10) as (a & -> & La). destruct (count_in_ok (di_implanted_y di) yi _ S11) as (b & -> & Lb).
      destruct (count_in_ok (di_implanted_z di) zi _ S12) as (c & -> & Lc). cbn [bind]. exists a, b, c. auto. }
    rewrite E3. cbn [bind].
    match goal with |- context [add_losses units n ?dd (p_energies p)] => set (d1 := dd) end.
    assert (shape d d1) by (unfold shape; cbn; repeat split; auto).
    destruct (_ && p_incident p); [apply add_losses_safe; auto|eauto].
  Qed.
  Lemma updates_safe d options units n ps : enough_bins d -> forall di, shape d di -> exists di', distributions_updates options units n di ps = Ok di' /\ shape d di'.
  Proof.
    intros He. induction ps as [|p ps IH]; intros di Hs; cbn [distributions_updates]; [eauto|].
    destruct (update_safe d options units n di p He Hs) as (d1 & -> & S1). cbn [bind]. auto.
  Qed.
  Lemma shape_new d : shape d (distributions_new d).
  Proof.
    unfold shape, distributions_new; cbn. rewrite !repeat_length. repeat split; apply Forall_forall; intros r Hr; apply repeat_spec in Hr; subst; apply repeat_length.
  Qed.
  Lemma axis_one (a b : F) : axis (linspace a b 1) = Panic IndexOOB.
  Proof. reflexivity. Qed.
End Safe.

(** ** exact counts over the reals *)
Open Scope R_scope.
Lemma Int_part_spec x : IZR (Int_part x) <= x < IZR (Int_part x) + 1.
Proof. destruct (base_Int_part x). lra. Qed.
Lemma Int_part_unique k x : IZR k <= x < IZR k + 1 -> Int_part x = k.
Proof.
  intros H. destruct (Int_part_spec x) as (H1 & H2). assert (IZR (Int_part x) < IZR (k + 1)) by (rewrite plus_IZR; lra).
  assert (IZR k < IZR (Int_part x + 1)) by (rewrite plus_IZR; lra). apply lt_IZR in H0, H3. lia.
Qed.
Lemma Int_part_IZR k : Int_part (IZR k) = k.
Proof. apply Int_part_unique. lra. Qed.
Lemma Rtrunc_IZR k : Rtrunc (IZR k) = k.
Proof. unfold Rtrunc. destruct (Rle_dec 0 (IZR k)); [apply Int_part_IZR|]. rewrite <- opp_IZR, Int_part_IZR. lia. Qed.
Definition clamp (z : Z) : Z := Z.max (- 2 ^ 31) (Z.min (2 ^ 31 - 1) z).
Lemma in_bins_clamp z n : (Z.of_nat n < 2 ^ 31)%Z -> in_bins (clamp z) n = in_bins z n /\ (in_bins z n = true -> clamp z = z).
Proof.
  intros H. unfold in_bins, clamp. split.
  - apply eq_true_iff_eq. rewrite !andb_true_iff, !Z.leb_le, !Z.ltb_lt. lia.
  - rewrite andb_true_iff, Z.leb_le, Z.ltb_lt. lia.
Qed.
Lemma in_bin_true lo w i v : in_bin lo w i v = true <-> lo + INR i * w <= v < lo + INR (S i) * w.
Proof. unfold in_bin. destruct (Rle_dec _ _); [destruct (Rlt_dec _ _)|]; split; intros; auto; try discriminate; lra. Qed.
Lemma axis_R lo hi num : axis_ok lo hi num -> axis (linspace lo hi num) = Ok (lo, bin_width lo hi num) /\ 0 < bin_width lo hi num.
Proof.
  intros (Hlt & Hn & _). destruct num as [|[|m]]; [lia|lia|].
  assert (Hp : 0 < INR (S (S m) - 1)) by (apply lt_0_INR; lia).
  unfold bin_width. split; [|apply Rdiv_lt_0_compat; lra].
  unfold axis, linspace, idx. cbn [seq map nth_error bind]. f_equal. change (Num.nnat ?n) with (@nnat R NumR n).
  rewrite !nnat_R. toR. f_equal; cbn [INR]; field; cbn [Nat.sub] in *; lra.
Qed.
Lemma quotient_bin lo w v k : 0 < w -> IZR k <= (v - lo) / w < IZR k + 1 <-> lo + IZR k * w <= v < lo + (IZR k + 1) * w.
Proof.
  intros Hw. assert (E : v = lo + (v - lo) / w * w) by (field; lra). set (q := (v - lo) / w) in *. clearbody q. subst v.
  split; intros (H1 & H2); split.
  - apply Rplus_le_compat_l. apply Rmult_le_compat_r; lra.
  - apply Rplus_lt_compat_l. apply Rmult_lt_compat_r; lra.
  - apply Rmult_le_reg_r with w; lra.
  - apply Rmult_lt_reg_r with w; lra.
Qed.
(** the bin of an energy or angle *)
Lemma bin_floor_R lo hi num v : axis_ok lo hi num -> exists z, bin_floor (linspace lo hi num) v = Ok z /\
  forall i, (i < num)%nat -> (in_bins z num && Nat.eqb (Z.to_nat z) i) = in_bin lo (bin_width lo hi num) i v.
Proof.
  intros Ha. destruct (axis_R _ _ _ Ha) as (E & Hw). destruct Ha as (_ & Hn & Hb). unfold bin_floor. rewrite E. cbn [bind].
  eexists. split; [reflexivity|]. intros i Hi. change (@nto_i32 R NumR) with Rto_i32. change (@nfloor R NumR) with (fun x => IZR (Int_part x)). cbv beta. toR.
  unfold Rto_i32. rewrite Rtrunc_IZR. set (w := bin_width _ _ _) in *. set (q := (v - lo) / w).
  change (Z.max _ _) with (clamp (Int_part q)). destruct (in_bins_clamp (Int_part q) num Hb) as (E1 & E2). rewrite E1.
  apply eq_true_iff_eq. rewrite andb_true_iff, in_bin_true, Nat.eqb_eq, INR_IZR_INZ, S_INR, INR_IZR_INZ, <- quotient_bin by auto. fold q. split.
  - intros (Hin & Ht). rewrite E2 in Ht by auto. unfold in_bins in Hin. apply andb_prop in Hin. destruct Hin as (H1 & _). apply Z.leb_le in H1.
    assert (Int_part q = Z.of_nat i) as <- by lia. apply Int_part_spec.
  - intros H. apply Int_part_unique in H. assert (in_bins (Int_part q) num = true) by (rewrite H; unfold in_bins; apply andb_true_intro; rewrite Z.leb_le, Z.ltb_lt; lia).
    split; auto. rewrite E2 by auto. rewrite H. apply Nat2Z.id.
Qed.
(** the bin of a position: truncation, not floor *)
Lemma bin_cast_R lo hi num v : axis_ok lo hi num -> exists z, bin_cast (linspace lo hi num) v = Ok z /\
  forall i, (i < num)%nat -> (in_bins z num && Nat.eqb (Z.to_nat z) i) = in_bin_or_just_below lo (bin_width lo hi num) i v.
Proof.
  intros Ha. destruct (axis_R _ _ _ Ha) as (E & Hw). destruct Ha as (_ & Hn & Hb). unfold bin_cast. rewrite E. cbn [bind].
  eexists. split; [reflexivity|]. intros i Hi. change (@nto_i32 R NumR) with Rto_i32. toR.
  unfold Rto_i32. set (w := bin_width _ _ _) in *. set (q := (v - lo) / w).
  change (Z.max _ _) with (clamp (Rtrunc q)). destruct (in_bins_clamp (Rtrunc q) num Hb) as (E1 & E2). rewrite E1.
  assert (Ev : v = lo + q * w) by (unfold q; field; lra).
  assert (Hqi : in_bin lo w i v = true <-> IZR (Z.of_nat i) <= q < IZR (Z.of_nat i) + 1).
  { rewrite in_bin_true, INR_IZR_INZ, S_INR, INR_IZR_INZ, <- quotient_bin by auto. fold q. tauto. }
  unfold in_bin_or_just_below. apply eq_true_iff_eq. rewrite andb_true_iff, orb_true_iff, andb_true_iff, !Nat.eqb_eq, Hqi.
  assert (Hb2 : (if Rlt_dec (lo - w) v then if Rlt_dec v lo then true else false else false) = true <-> -1 < q < 0).
  { destruct (Rlt_dec (lo - w) v) as [A|A]; [destruct (Rlt_dec v lo) as [B|B]|]; split; intros H; auto; try discriminate.
    - split; apply Rmult_lt_reg_r with w; lra.
    - exfalso. assert (q * w < 0 * w) by (apply Rmult_lt_compat_r; lra). lra.
    - exfalso. assert (-1 * w < q * w) by (apply Rmult_lt_compat_r; lra). lra. }
  rewrite Hb2. clear Hb2 Hqi. unfold Rtrunc in *. destruct (Rle_dec 0 q) as [Hq|Hq].
  - split.
    + intros (Hin & Ht). left. rewrite E2 in Ht by auto. unfold in_bins in Hin. apply andb_prop in Hin. destruct Hin as (H1 & _). apply Z.leb_le in H1.
      assert (Int_part q = Z.of_nat i) as <- by lia. apply Int_part_spec.
    + intros [H|(_ & H)]; [|lra]. apply Int_part_unique in H. assert (in_bins (Int_part q) num = true) by (rewrite H; unfold in_bins; apply andb_true_intro; rewrite Z.leb_le, Z.ltb_lt; lia).
      split; auto. rewrite E2 by auto. rewrite H. apply Nat2Z.id.
  - destruct (Int_part_spec (- q)) as (H1 & H2). assert (0 <= Int_part (- q))%Z.
    { assert (0 < IZR (Int_part (- q) + 1)) by (rewrite plus_IZR; lra). apply lt_IZR in H. lia. }
    split.
    + intros (Hin & Ht). rewrite E2 in Ht by auto. unfold in_bins in Hin. apply andb_prop in Hin. destruct Hin as (Hz & _). apply Z.leb_le in Hz.
      assert (E0 : Int_part (- q) = 0%Z) by lia. rewrite E0 in *. right. split; [rewrite <- Ht; reflexivity|]. lra.
    + intros [(Hi0 & _)|(-> & Hq1)].
      * exfalso. apply Hq. apply Rle_trans with (2 := Hi0). apply IZR_le. lia.
      * assert (E0 : Int_part (- q) = 0%Z) by (apply Int_part_unique; lra). rewrite E0 in *. change (- 0)%Z with 0%Z in *. 
        assert (in_bins 0 num = true) by (unfold in_bins; apply andb_true_intro; rewrite Z.leb_le, Z.ltb_lt; lia). split; [assumption|]. rewrite E2 by assumption. reflexivity.
Qed.

(** arrays as functions of the index *)
Lemma increment_tabulate n : forall a (g : nat -> nat) i, (i < n)%nat ->
  increment (map g (seq a n)) i = Ok (map (fun j => (g j + (if Nat.eqb (a + i) j then 1 else 0))%nat) (seq a n)).
Proof.
  induction n as [|n IH]; intros a g i Hi; [lia|]. destruct i as [|i]; cbn [seq map increment].
  - rewrite Nat.add_0_r, Nat.eqb_refl, Nat.add_1_r. do 2 f_equal. apply map_ext_in. intros j Hj. apply in_seq in Hj.
    destruct (Nat.eqb_spec a j); lia.
  - rewrite IH by lia. cbn [bind]. destruct (Nat.eqb_spec (a + S i) a); [lia|]. rewrite Nat.add_0_r. do 2 f_equal.
    apply map_ext. intros j. replace (S a + i)%nat with (a + S i)%nat by lia. reflexivity.
Qed.
Lemma add_at_tabulate n (x : R) : forall a (g : nat -> R) i, (i < n)%nat ->
  add_at (map g (seq a n)) i x = Ok (map (fun j => g j + (if Nat.eqb (a + i) j then x else 0)) (seq a n)).
Proof.
  induction n as [|n IH]; intros a g i Hi; [lia|]. destruct i as [|i]; cbn [seq map add_at].
  - rewrite Nat.add_0_r, Nat.eqb_refl. toR. do 2 f_equal. apply map_ext_in. intros j Hj. apply in_seq in Hj.
    destruct (Nat.eqb_spec a j); [lia|lra].
  - rewrite IH by lia. cbn [bind]. destruct (Nat.eqb_spec (a + S i) a); [lia|]. rewrite Rplus_0_r. do 2 f_equal.
    apply map_ext. intros j. replace (S a + i)%nat with (a + S i)%nat by lia. reflexivity.
Qed.
Lemma increment2_tabulate n m : forall a (g : nat -> nat -> nat) i j, (i < n)%nat -> (j < m)%nat ->
  increment2 (map (fun r => map (g r) (seq 0 m)) (seq a n)) i j
  = Ok (map (fun r => map (fun c => (g r c + (if Nat.eqb (a + i) r && Nat.eqb j c then 1 else 0))%nat) (seq 0 m)) (seq a n)).
Proof.
  induction n as [|n IH]; intros a g i j Hi Hj; [lia|]. destruct i as [|i]; cbn [seq map increment2].
  - rewrite Nat.add_0_r, increment_tabulate by auto. cbn [bind]. f_equal. rewrite Nat.eqb_refl. cbn [andb plus]. f_equal. apply map_ext_in. intros r Hr. apply in_seq in Hr.
    destruct (Nat.eqb_spec a r); [lia|]. apply map_ext. intros c. cbn [andb]. rewrite Nat.add_0_r. reflexivity.
  - rewrite IH by lia. cbn [bind]. f_equal. f_equal.
    + apply map_ext. intros c. destruct (Nat.eqb_spec (a + S i) a); [lia|]. cbn [andb]. lia.
    + apply map_ext. intros r. replace (S a + i)%nat with (a + S i)%nat by lia. reflexivity.
Qed.
Lemma repeat_tabulate {A} (x : A) n : forall a, repeat x n = map (fun _ => x) (seq a n).
Proof. induction n as [|n IH]; intros a; cbn; auto. f_equal. apply IH. Qed.

Lemma count_in_tabulate (g : nat -> nat) z n : count_in (map g (seq 0 n)) z n
  = Ok (map (fun j => (g j + (if in_bins z n && Nat.eqb (Z.to_nat z) j then 1 else 0))%nat) (seq 0 n)).
Proof.
  unfold count_in. destruct (in_bins z n) eqn:E.
  - apply in_bins_lt in E. rewrite increment_tabulate by lia. reflexivity.
  - cbn [andb]. f_equal. apply map_ext. intros; lia.
Qed.
Lemma tabulate_ext {A} (f g : nat -> A) n : (forall i, (i < n)%nat -> f i = g i) -> map f (seq 0 n) = map g (seq 0 n).
Proof. intros H. apply map_ext_in. intros i Hi. apply in_seq in Hi. apply H. lia. Qed.

(** emission angle *)
Lemma atan2_polar x y : 0 <= y -> 0 < x * x + y * y -> 0 <= Ratan2 y x <= PI /\ cos (Ratan2 y x) * sqrt (x * x + y * y) = x.
Proof.
  intros Hy Hs. pose proof PI_RGT_0 as Hpi.
  assert (Hcos : forall t, cos (atan t) * sqrt (1 + t * t) = 1).
  { intros t. assert (Hc : 0 < cos (atan t)) by (destruct (atan_bound t); apply cos_gt_0; lra).
    assert (E1 : sin (atan t) = t * cos (atan t)).
    { pose proof (tan_atan t) as E. unfold tan in E. rewrite <- E at 2. field. lra. }
    pose proof (sin2_cos2 (atan t)) as E2. unfold Rsqr in E2. rewrite E1 in E2.
    rewrite <- (sqrt_Rsqr (cos (atan t))) at 1 by lra. rewrite <- sqrt_mult_alt by apply Rle_0_sqr.
    replace (Rsqr (cos (atan t)) * (1 + t * t)) with 1 by (unfold Rsqr; lra). apply sqrt_1. }
  unfold Ratan2. destruct (Rlt_dec 0 x) as [Hx|Hx].
  - assert (0 <= y / x) by (apply Rmult_le_pos; [lra|left; apply Rinv_0_lt_compat; lra]).
    destruct (atan_bound (y / x)). assert (0 <= atan (y / x)).
    { destruct H as [H|<-]; [left; rewrite <- atan_0; apply atan_increasing; auto|rewrite atan_0; lra]. }
    split; [lra|]. replace (x * x + y * y) with (Rsqr x * (1 + y / x * (y / x))) by (unfold Rsqr; field; lra).
    rewrite sqrt_mult_alt, sqrt_Rsqr by (try apply Rle_0_sqr; lra). pose proof (Hcos (y / x)). nra.
  - destruct (Rlt_dec x 0) as [Hx'|Hx'].
    + destruct (Rle_dec 0 y); [|contradiction]. set (t := y / x).
      assert (t <= 0). { unfold t. replace (y / x) with (- (y / - x)) by (field; lra). assert (0 <= y / - x) by (apply Rmult_le_pos; [lra|left; apply Rinv_0_lt_compat; lra]). lra. }
      destruct (atan_bound t). assert (atan t <= 0).
      { destruct H as [H| ->]; [left; rewrite <- atan_0; apply atan_increasing; auto|rewrite atan_0; lra]. }
      split; [lra|]. rewrite neg_cos. replace (x * x + y * y) with (Rsqr (- x) * (1 + t * t)) by (unfold Rsqr, t; field; lra).
      rewrite sqrt_mult_alt, sqrt_Rsqr by (try apply Rle_0_sqr; lra). pose proof (Hcos t). nra.
    + assert (x = 0) by lra. subst. destruct (Rlt_dec 0 y) as [Hp|Hp]; [|exfalso; nra]. rewrite cos_PI2. split; lra.
Qed.
Lemma angle_polar (p : Particle R) units : p_dir p <> mkV 0 0 0 -> emission_angle (p_dir p) (snd (energy_angle_from_particle p units)).
Proof.
  intros Hd. unfold energy_angle_from_particle, emission_angle. cbn [snd]. rewrite nZ_R. toR. rewrite ?powerRZ2, ?npowi2_R.
  change (@natan2 R NumR) with Ratan2. change (@npi R NumR) with PI.
  destruct (p_dir p) as [ux uy uz]. cbn [vx vy vz] in *. pose proof PI_RGT_0 as Hpi.
  assert (Hs : 0 < ux * ux + (uy * uy + uz * uz)).
  { assert (0 <= ux * ux /\ 0 <= uy * uy /\ 0 <= uz * uz) as (A & B & C) by (repeat split; apply Rle_0_sqr).
    destruct (Rlt_le_dec 0 (ux * ux + (uy * uy + uz * uz))) as [|H]; auto. exfalso. apply Hd.
    assert (ux * ux = 0 /\ uy * uy = 0 /\ uz * uz = 0) as (A' & B' & C') by (repeat split; lra).
    apply Rsqr_0_uniq in A', B', C'. congruence. }
  assert (Hyz : 0 <= uy * uy + uz * uz) by (assert (0 <= uy * uy) by apply Rle_0_sqr; assert (0 <= uz * uz) by apply Rle_0_sqr; lra).
  destruct (atan2_polar (- ux) (sqrt (uy * uy + uz * uz)) (sqrt_pos _)) as (H1 & H2).
  { rewrite sqrt_sqrt by auto. lra. }
  rewrite sqrt_sqrt in H2 by auto. set (th := Ratan2 _ _) in *.
  split.
  - split; [apply Rmult_le_pos; [lra|left; apply Rinv_0_lt_compat; lra]|]. apply Rmult_le_reg_r with PI; [lra|]. unfold Rdiv. rewrite Rmult_assoc, Rinv_l by lra. lra.
  - replace (th * 180 / PI * PI / 180) with th by (field; lra). replace (ux * ux + uy * uy + uz * uz) with (- ux * - ux + (uy * uy + uz * uz)) by ring. exact H2.
Qed.
Lemma polar_unique u a b : u <> mkV 0 0 0 -> emission_angle u a -> emission_angle u b -> a = b.
Proof.
  intros Hu ((Ha1 & Ha2) & Ha) ((Hb1 & Hb2) & Hb). pose proof PI_RGT_0 as Hpi.
  set (n := sqrt _) in *.
  assert (Hn : 0 < n).
  { apply sqrt_lt_R0. destruct u as [ux uy uz]; cbn [vx vy vz].
    assert (0 <= ux * ux /\ 0 <= uy * uy /\ 0 <= uz * uz) as (A & B & C) by (repeat split; apply Rle_0_sqr).
    destruct (Rlt_le_dec 0 (ux * ux + uy * uy + uz * uz)) as [|H]; auto. exfalso. apply Hu.
    assert (ux * ux = 0 /\ uy * uy = 0 /\ uz * uz = 0) as (A' & B' & C') by (repeat split; lra).
    apply Rsqr_0_uniq in A', B', C'. congruence. }
  assert (E : cos (a * PI / 180) = cos (b * PI / 180)) by (apply Rmult_eq_reg_r with n; lra).
  assert (a * PI / 180 = b * PI / 180).
  { assert (Hbd : forall t, 0 <= t <= 180 -> 0 <= t * PI / 180 <= PI).
    { intros t (T1 & T2). assert (0 <= t * PI) by (apply Rmult_le_pos; lra). assert (t * PI <= 180 * PI) by (apply Rmult_le_compat_r; lra). lra. }
    destruct (Hbd a ltac:(lra)), (Hbd b ltac:(lra)).
    destruct (Rtotal_order (a * PI / 180) (b * PI / 180)) as [L|[L|L]]; auto; exfalso;
      [assert (cos (b * PI / 180) < cos (a * PI / 180)) by (apply cos_decreasing_1; auto)
      |assert (cos (a * PI / 180) < cos (b * PI / 180)) by (apply cos_decreasing_1; auto)]; lra. }
  apply Rmult_eq_reg_r with (PI / 180); lra.
Qed.

Section Exact.
  Context (d : DistOptions R) (options : Options R) (units : OutputUnits R) (num_incident : nat) (Hd : axes_ok d).
  Let we := bin_width (d_energy_min d) (d_energy_max d) (d_energy_num d).
  Let wa := bin_width (d_angle_min d) (d_angle_max d) (d_angle_num d).
  Let wx := bin_width (d_x_min d) (d_x_max d) (d_x_num d).
  Let wy := bin_width (d_y_min d) (d_y_max d) (d_y_num d).
  Let wz := bin_width (d_z_min d) (d_z_max d) (d_z_num d).
  Let energy (p : Particle R) := fst (energy_angle_from_particle p units).
  Let angle (p : Particle R) := snd (energy_angle_from_particle p units).
  Definition in_cell d units (i j : nat) (p : Particle R) : bool :=
    in_bin (d_energy_min d) (bin_width (d_energy_min d) (d_energy_max d) (d_energy_num d)) i (fst (energy_angle_from_particle p units)) &&
    in_bin (d_angle_min d) (bin_width (d_angle_min d) (d_angle_max d) (d_angle_num d)) j (snd (energy_angle_from_particle p units)).
  Definition loss_records (options : Options R) (ps : list (Particle R)) : list (EnergyLoss R) :=
    if o_track_energy_losses options then flat_map (@p_energies R) (filter (@p_incident R) ps) else [].
  Definition loss_sum d units (num : nat) (f : EnergyLoss R -> R) (i : nat) (els : list (EnergyLoss R)) : R :=
    Rsum (map (fun el => f el / ou_energy_unit units / INR num / bin_width (d_x_min d) (d_x_max d) (d_x_num d))
       (filter (fun el => in_bin_or_just_below (d_x_min d) (bin_width (d_x_min d) (d_x_max d) (d_x_num d)) i (el_x el / ou_length_unit units)) els)).
  Record accounts (di : Distributions R) (ps : list (Particle R)) (els : list (EnergyLoss R)) : Prop := mkAccounts {
    ac_e : di_energies di = linspace (d_energy_min d) (d_energy_max d) (d_energy_num d);
    ac_a : di_angles di = linspace (d_angle_min d) (d_angle_max d) (d_angle_num d);
    ac_x : di_x_range di = linspace (d_x_min d) (d_x_max d) (d_x_num d);
    ac_y : di_y_range di = linspace (d_y_min d) (d_y_max d) (d_y_num d);
    ac_z : di_z_range di = linspace (d_z_min d) (d_z_max d) (d_z_num d);
    ac_r : di_reflected_ead di = map (fun i => map (fun j => count (fun p => reflected p && in_cell d units i j p) ps) (seq 0 (d_angle_num d))) (seq 0 (d_energy_num d));
    ac_s : di_sputtered_ead di = map (fun i => map (fun j => count (fun p => sputtered p && in_cell d units i j p) ps) (seq 0 (d_angle_num d))) (seq 0 (d_energy_num d));
    ac_ix : di_implanted_x di = map (fun i => count (fun p => deposited p && in_bin_or_just_below (d_x_min d) wx i (vx (p_pos p) / ou_length_unit units)) ps) (seq 0 (d_x_num d));
    ac_iy : di_implanted_y di = map (fun i => count (fun p => deposited p && in_bin_or_just_below (d_y_min d) wy i (vy (p_pos p) / ou_length_unit units)) ps) (seq 0 (d_y_num d));
    ac_iz : di_implanted_z di = map (fun i => count (fun p => deposited p && in_bin_or_just_below (d_z_min d) wz i (vz (p_pos p) / ou_length_unit units)) ps) (seq 0 (d_z_num d));
    ac_ee : di_electronic_energy_loss_x di = map (fun i => loss_sum d units num_incident (@el_Ee R) i els) (seq 0 (d_x_num d));
    ac_en : di_nuclear_energy_loss_x di = map (fun i => loss_sum d units num_incident (@el_En R) i els) (seq 0 (d_x_num d)) }.

  Lemma accounts_new : accounts (distributions_new d) [] [].
  Proof.
    constructor; cbn [distributions_new di_energies di_angles di_x_range di_y_range di_z_range di_reflected_ead di_sputtered_ead di_implanted_x di_implanted_y di_implanted_z di_electronic_energy_loss_x di_nuclear_energy_loss_x]; auto.
    - rewrite (repeat_tabulate 0%nat _ 0), (repeat_tabulate _ _ 0). reflexivity.
    - rewrite (repeat_tabulate 0%nat _ 0), (repeat_tabulate _ _ 0). reflexivity.
    - apply repeat_tabulate.
    - apply repeat_tabulate.
    - apply repeat_tabulate.
    - rewrite (repeat_tabulate _ _ 0), nZ_R. reflexivity.
    - rewrite (repeat_tabulate _ _ 0), nZ_R. reflexivity.
  Qed.
  Lemma loss_sum_snoc f i els el : loss_sum d units num_incident f i (els ++ [el]) = loss_sum d units num_incident f i els +
    (if in_bin_or_just_below (d_x_min d) wx i (el_x el / ou_length_unit units) then f el / ou_energy_unit units / INR num_incident / wx else 0).
  Proof.
    unfold loss_sum. rewrite filter_app, map_app. fold wx. cbn [filter].
    assert (Hs : forall l x, Rsum (l ++ [x]) = Rsum l + x) by (intros l x; unfold Rsum; induction l as [|a l IH]; cbn; [lra|rewrite IH; lra]).
    destruct (in_bin_or_just_below _ _ _ _); cbn [map]; [apply Hs|rewrite app_nil_r; lra].
  Qed.
  Lemma add_loss_accounts di ps els el : accounts di ps els ->
    exists di', add_loss units num_incident di el = Ok di' /\ accounts di' ps (els ++ [el]).
  Proof.
    intros [A1 A2 A3 A4 A5 A6 A7 A8 A9 A10 A11 A12]. destruct Hd as (_ & _ & Hx & _).
    unfold add_loss. cbv zeta. rewrite A3. destruct (axis_R _ _ _ Hx) as (Ea & Hw). rewrite Ea. fold wx. cbn [bind].
    rewrite linspace_length.
    match goal with |- context [bin_cast ?l ?v] => destruct (bin_cast_R _ _ _ v Hx) as (z & -> & Hz) end. cbn [bind].
    assert (Hval : forall f i, (i < d_x_num d)%nat -> loss_sum d units num_incident f i (els ++ [el]) =
       loss_sum d units num_incident f i els + (if in_bins z (d_x_num d) && Nat.eqb (Z.to_nat z) i then f el / ou_energy_unit units / INR num_incident / wx else 0)).
    { intros f i Hi. rewrite loss_sum_snoc, Hz by auto. reflexivity. }
    destruct (in_bins z (d_x_num d)) eqn:E.
    - apply in_bins_lt in E. rewrite A11, A12, !add_at_tabulate by lia. cbn [bind]. eexists. split; [reflexivity|].
      constructor; cbn [di_energies di_angles di_x_range di_y_range di_z_range di_reflected_ead di_sputtered_ead di_implanted_x di_implanted_y di_implanted_z di_electronic_energy_loss_x di_nuclear_energy_loss_x]; auto;
      apply tabulate_ext; intros i Hi; rewrite Hval by auto; rewrite nnat_R; cbn [andb plus]; reflexivity.
    - eexists. split; [reflexivity|]. constructor; auto; [rewrite A11|rewrite A12]; apply tabulate_ext; intros i Hi; rewrite Hval by auto; cbn [andb]; lra.
  Qed.
  Lemma add_losses_accounts l : forall di ps els, accounts di ps els ->
    exists di', add_losses units num_incident di l = Ok di' /\ accounts di' ps (els ++ l).
  Proof.
    induction l as [|el l IH]; intros di ps els A; cbn [add_losses]; [rewrite app_nil_r; eauto|].
    destruct (add_loss_accounts di ps els el A) as (d1 & -> & A1). cbn [bind]. destruct (IH _ _ _ A1) as (d2 & E2 & A2). exists d2. rewrite <- app_assoc in A2. auto.
  Qed.
  Lemma count_snoc {A} (t : A -> bool) l x : count t (l ++ [x]) = (count t l + (if t x then 1 else 0))%nat.
  Proof. rewrite count_app. unfold count at 2. cbn. destruct (t x); reflexivity. Qed.
  Lemma update_accounts di ps p : accounts di ps (loss_records options ps) ->
    exists di', distributions_update options units num_incident di p = Ok di' /\ accounts di' (ps ++ [p]) (loss_records options (ps ++ [p])).
  Proof.
    intros [A1 A2 A3 A4 A5 A6 A7 A8 A9 A10 A11 A12]. destruct Hd as (He & Ha & Hx & Hy & Hz).
    unfold distributions_update. rewrite A1, A2, A3, A4, A5, !linspace_length.
    destruct (bin_floor_R _ _ _ (energy p) He) as (ei & Ee & Hei). destruct (bin_floor_R _ _ _ (angle p) Ha) as (ai & Eai & Hai).
    unfold energy, angle in *. destruct (energy_angle_from_particle p units) as (en & an) eqn:Eea. cbn [fst snd] in *.
    rewrite Ee. cbn [bind]. rewrite Eai. cbn [bind]. cbv zeta.
    assert (Hcell : forall i j, (i < d_energy_num d)%nat -> (j < d_angle_num d)%nat ->
      in_cell d units i j p = (in_bins ei (d_energy_num d) && in_bins ai (d_angle_num d)) && (Nat.eqb (Z.to_nat ei) i && Nat.eqb (Z.to_nat ai) j)).
    { intros i j Hi Hj. unfold in_cell. rewrite Eea. cbn [fst snd]. rewrite <- Hei, <- Hai by auto.
      destruct (in_bins ei _), (in_bins ai _), (Nat.eqb (Z.to_nat ei) i), (Nat.eqb (Z.to_nat ai) j); reflexivity. }
    set (inside := in_bins ei _ && in_bins ai _) in *.
    assert (Hin : inside = true -> (Z.to_nat ei < d_energy_num d /\ Z.to_nat ai < d_angle_num d)%nat).
    { intros Ht. apply andb_prop in Ht. destruct Ht as (P & Q). apply in_bins_lt in P, Q. lia. }
    assert (H2d : forall (t : Particle R -> bool) arr, arr = map (fun i => map (fun j => count (fun p => t p && in_cell d units i j p) ps) (seq 0 (d_angle_num d))) (seq 0 (d_energy_num d)) ->
      (if t p && inside then increment2 arr (Z.to_nat ei) (Z.to_nat ai) else Ok arr)
      = Ok (map (fun i => map (fun j => count (fun p => t p && in_cell d units i j p) (ps ++ [p])) (seq 0 (d_angle_num d))) (seq 0 (d_energy_num d)))).
    { intros t arr ->. destruct (t p && inside) eqn:E.
      - apply andb_prop in E. destruct E as (Et & Ei). destruct (Hin Ei). rewrite increment2_tabulate by auto. f_equal.
        apply tabulate_ext. intros i Hi. apply tabulate_ext. intros j Hj. rewrite count_snoc, Hcell, Et, Ei by auto. reflexivity.
      - f_equal. apply tabulate_ext. intros i Hi. apply tabulate_ext. intros j Hj. rewrite count_snoc, Hcell by auto.
        rewrite andb_assoc, E. cbn [andb]. lia. }
    unfold reflected in *. change (p_incident p && p_left p) with (reflected p). change (negb (p_incident p) && p_left p) with (sputtered p).
    rewrite (H2d reflected _ A6). cbn [bind]. rewrite (H2d sputtered _ A7). cbn [bind]. clear H2d Hcell.
    change (p_incident p && p_stopped p) with (deposited p).
    assert (Himp : forall lo hi num v z w, axis_ok lo hi num -> w = bin_width lo hi num -> bin_cast (linspace lo hi num) (v p) = Ok z ->
       forall arr, arr = map (fun i => count (fun p => deposited p && in_bin_or_just_below lo w i (v p)) ps) (seq 0 num) ->
       deposited p = true ->
       count_in arr z num = Ok (map (fun i => count (fun p => deposited p && in_bin_or_just_below lo w i (v p)) (ps ++ [p])) (seq 0 num))).
    { intros lo hi num v z w Hax -> Hb arr -> Hdep. destruct (bin_cast_R _ _ _ (v p) Hax) as (z' & Hb' & Hzz). rewrite Hb in Hb'. injection Hb' as <-.
      rewrite count_in_tabulate. f_equal. apply tabulate_ext. intros i Hi. rewrite count_snoc, Hdep, Hzz by auto. reflexivity. }
    assert (Hno : forall lo w v num, deposited p = false -> map (fun i => count (fun p => deposited p && in_bin_or_just_below lo w i (v p)) ps) (seq 0 num)
       = map (fun i => count (fun p => deposited p && in_bin_or_just_below lo w i (v p)) (ps ++ [p])) (seq 0 num)).
    { intros lo w v num Hdep. apply map_ext. intros i. rewrite count_snoc, Hdep. cbn [andb]. lia. }
    set (cx := fun p : Particle R => vx (p_pos p) / ou_length_unit units) in *. set (cy := fun p : Particle R => vy (p_pos p) / ou_length_unit units) in *. set (cz := fun p : Particle R => vz (p_pos p) / ou_length_unit units) in *.
    toR. change (vx (p_pos p) / ou_length_unit units) with (cx p). change (vy (p_pos p) / ou_length_unit units) with (cy p). change (vz (p_pos p) / ou_length_unit units) with (cz p).
    match goal with |- exists di', bind ?e _ = _ /\ _ => assert (Eimp : e = Ok
       (map (fun i => count (fun p => deposited p && in_bin_or_just_below (d_x_min d) wx i (cx p)) (ps ++ [p])) (seq 0 (d_x_num d)),
        map (fun i => count (fun p => deposited p && in_bin_or_just_below (d_y_min d) wy i (cy p)) (ps ++ [p])) (seq 0 (d_y_num d)),
        map (fun i => count (fun p => deposited p && in_bin_or_just_below (d_z_min d) wz i (cz p)) (ps ++ [p])) (seq 0 (d_z_num d)))) end.
    { destruct (deposited p) eqn:Hdep.
      - destruct (bin_cast_R _ _ _ (cx p) Hx) as (xi & Exi & _). destruct (bin_cast_R _ _ _ (cy p) Hy) as (yi & Eyi & _). destruct (bin_cast_R _ _ _ (cz p) Hz) as (zi & Ezi & _).
        rewrite Exi. cbn [bind]. rewrite Eyi. cbn [bind]. rewrite Ezi. cbn [bind].
        rewrite (Himp _ _ _ cx xi wx Hx eq_refl Exi _ A8 eq_refl). cbn [bind]. rewrite (Himp _ _ _ cy yi wy Hy eq_refl Eyi _ A9 eq_refl). cbn [bind].
        rewrite (Himp _ _ _ cz zi wz Hz eq_refl Ezi _ A10 eq_refl). reflexivity.
      - rewrite A8, A9, A10. rewrite <- (Hno (d_x_min d) wx cx _ eq_refl), <- (Hno (d_y_min d) wy cy _ eq_refl), <- (Hno (d_z_min d) wz cz _ eq_refl). reflexivity. }
    rewrite Eimp. cbn [bind].
    match goal with |- context [add_losses units num_incident ?dd (p_energies p)] => set (d1 := dd) end.
    assert (Ac : accounts d1 (ps ++ [p]) (loss_records options ps)) by (constructor; auto).
    assert (Hrec : loss_records options (ps ++ [p]) = loss_records options ps ++ (if o_track_energy_losses options && p_incident p then p_energies p else [])).
    { unfold loss_records. destruct (o_track_energy_losses options); [|reflexivity]. rewrite filter_app, flat_map_app. cbn. destruct (p_incident p); cbn; rewrite ?app_nil_r; reflexivity. }
    rewrite Hrec. destruct (_ && p_incident p).
    - apply add_losses_accounts. exact Ac.
    - exists d1. rewrite app_nil_r. auto.
  Qed.
  Lemma updates_accounts ps' : forall di ps, accounts di ps (loss_records options ps) ->
    exists di', distributions_updates options units num_incident di ps' = Ok di' /\ accounts di' (ps ++ ps') (loss_records options (ps ++ ps')).
  Proof.
    induction ps' as [|p ps' IH]; intros di ps A; cbn [distributions_updates]; [rewrite app_nil_r; eauto|].
    destruct (update_accounts di ps p A) as (d1 & -> & A1). cbn [bind]. destruct (IH _ _ A1) as (d2 & E2 & A2). exists d2. rewrite <- app_assoc in A2. auto.
  Qed.
End Exact.
