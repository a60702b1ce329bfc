(** * ProofsRoots.v - largest roots and turning points *)
From Coquelicot Require Import Coquelicot.
From Coq Require Import ZArith List Bool Lia Reals Lra.
From Verif Require Import Num ModelTypes ModelConsts ModelInteractions ModelBca ProofsBase NumR SpecR SpecCollision SpecRoots
  ProofsInteractions ProofsNewton ProofsCollision PropertiesCollision.
Import ListNotations.
Open Scope R_scope.

Lemma max_fold (l : list R) : forall m,
  exists k, fold_left (fun acc r => if nis_nan r then acc else match acc with None => Some r | Some m => Some (if nlt m r then r else m) end) l (Some m) = Some k
    /\ (k = m \/ In k l) /\ m <= k /\ forall x, In x l -> x <= k.
Proof.
  induction l as [|a l IH]; intros m; cbn [fold_left].
  - exists m. split; [reflexivity|]. split; [auto|]. split; [lra|]. intros x [].
  - change (nis_nan a) with false. cbv iota.
    assert (Hlt : nlt m a = true <-> m < a) by (apply nlt_true).
    destruct (nlt m a) eqn:E.
    + destruct (IH a) as (k & H1 & H2 & H3 & H4). exists k. split; [exact H1|].
      assert (m < a) by (apply Hlt; reflexivity).
      split; [destruct H2 as [->|]; right; [left; reflexivity|right; assumption]|]. split; [lra|].
      intros x [<-|Hx]; [lra|apply H4; exact Hx].
    + destruct (IH m) as (k & H1 & H2 & H3 & H4). exists k. split; [exact H1|].
      assert (~ m < a) by (intros C; apply Hlt in C; discriminate).
      split; [destruct H2 as [->|]; [left; reflexivity|right; right; assumption]|]. split; [exact H3|].
      intros x [<-|Hx]; [lra|apply H4; exact Hx].
Qed.
Lemma max_root_R (l : list R) : l <> [] -> exists m, max_root l = Some m /\ In m l /\ forall x, In x l -> x <= m.
Proof.
  destruct l as [|a l]; [congruence|]. intros _. unfold max_root. cbn [fold_left]. change (nis_nan a) with false. cbv iota.
  destruct (max_fold l a) as (k & H1 & H2 & H3 & H4). exists k. split; [exact H1|].
  split; [destruct H2 as [->|]; [left; reflexivity|right; assumption]|]. intros x [<-|Hx]; [exact H3|apply H4; exact Hx].
Qed.
Lemma max_root_nil : max_root ([] : list R) = None.
Proof. reflexivity. Qed.

(** monic polynomials are positive far out *)
Lemma poly_far (cs : list R) : exists T, 0 < T /\ forall t acc, T <= t -> 1 <= acc -> 1 <= fold_left (fun acc c => acc * t + c) cs acc.
Proof.
  induction cs as [|c cs (T & HT & IH)].
  - exists 1. split; [lra|]. intros t acc _ H. exact H.
  - exists (Rmax T (1 + Rabs c)). split; [pose proof (Rmax_l T (1 + Rabs c)); lra|].
    intros t acc Ht Ha. cbn [fold_left]. apply IH; [pose proof (Rmax_l T (1 + Rabs c)); lra|].
    pose proof (Rmax_r T (1 + Rabs c)). pose proof (Rabs_pos c). pose proof (Rle_abs (- c)). rewrite Rabs_Ropp in *.
    assert (1 * (1 + Rabs c) <= acc * t) by (apply Rmult_le_compat; lra). lra.
Qed.
Lemma poly_continuous (cs : list R) : forall f, continuity f -> continuity (fun t => fold_left (fun acc c => acc * t + c) cs (f t)).
Proof.
  induction cs as [|c cs IH]; intros f Hf; [exact Hf|]. cbn [fold_left].
  apply (IH (fun t => f t * t + c)). apply continuity_plus; [|apply continuity_const; intros x y; reflexivity].
  apply continuity_mult; [exact Hf|]. apply derivable_continuous. apply derivable_id.
Qed.
Lemma monic_root cs : (exists l, cs = 1 :: l) -> poly_eval cs 0 < 0 -> exists z, 0 < z /\ poly_eval cs z = 0.
Proof.
  intros (l & ->) H0. destruct (poly_far l) as (T & HT & Hf).
  assert (H1 : 0 < poly_eval (1 :: l) T).
  { unfold poly_eval. cbn [fold_left]. specialize (Hf T (0 * T + 1) ltac:(lra) ltac:(lra)). lra. }
  assert (Hc : continuity (poly_eval (1 :: l))).
  { unfold poly_eval. apply (poly_continuous (1 :: l) (fun _ => 0)). apply continuity_const. intros x y. reflexivity. }
  destruct (IVT (poly_eval (1 :: l)) 0 T Hc HT H0 H1) as (z & Hz & Ez).
  exists z. split; [|exact Ez]. destruct (Req_dec z 0) as [->|]; lra.
Qed.

Lemma coefficients_monic ip E p : inverse_polynomial ip -> exists l, polynomial_coefficients E p ip = Ok (1 :: l).
Proof. intros H. destruct ip; cbn in H; try (destruct H; fail); cbn [polynomial_coefficients]; cbv zeta; rewrite nZ_R; eexists; reflexivity. Qed.
Lemma core_wf ip : repulsive_core ip -> inverse_polynomial ip /\ well_formed_potential ip.
Proof. destruct ip; cbn; intros H; try (destruct H; fail); tauto. Qed.
Lemma core_negative ip E p cs : repulsive_core ip -> 0 < E -> polynomial_coefficients E p ip = Ok cs -> poly_eval cs 0 < 0.
Proof.
  intros Hc HE H. pose proof cEV_pos as Hev. pose proof cANGSTROM_pos as Han.
  destruct ip; cbn in Hc; try (destruct Hc; fail); cbn [polynomial_coefficients] in H; cbv zeta in H; apply (f_equal (fun r => match r with Ok l => l | _ => [] end)) in H;
    cbv beta iota in H; subst cs; unfold poly_eval; cbn [fold_left]; toR; rewrite !Rmult_0_r; rewrite ?Rplus_0_l.
  - destruct Hc as (Hs & He). assert (0 < npowf sigma (IZR 12)) by (rewrite npowf_pos by exact Hs; apply Rpower_gt0).
    set (w := npowf sigma (IZR 12)) in *. clearbody w. set (ev := (cEV : R)) in *. clearbody ev.
    replace (-4 * (epsilon / ev) * w / (E / ev)) with (- (4 * epsilon * w / E)) by (field; lra).
    assert (0 < 4 * epsilon * w / E) by (apply Rdiv_lt_0_compat; [apply Rmult_lt_0_compat; lra|exact HE]). lra.
  - destruct Hc as (Hs & He). match goal with |- context [npowf sigma ?y] => assert (0 < npowf sigma y) by (rewrite npowf_pos by exact Hs; apply Rpower_gt0); set (w := npowf sigma y) in * end.
    clearbody w. set (ev := (cEV : R)) in *. clearbody ev.
    replace (-4 * (epsilon / ev) * w / (E / ev)) with (- (4 * epsilon * w / E)) by (field; lra).
    assert (0 < 4 * epsilon * w / E) by (apply Rdiv_lt_0_compat; [apply Rmult_lt_0_compat; lra|exact HE]). lra.
  - set (an := (cANGSTROM : R)) in *. clearbody an. assert (Hp8 : 0 < powerRZ an 8) by (apply powerRZ_lt; exact Han). set (q := powerRZ an 8) in *. clearbody q.
    destruct Hc as (_ & Hbeta). assert (0 < beta / q / E) by (apply Rdiv_lt_0_compat; [apply Rdiv_lt_0_compat; assumption|exact HE]).
    replace (- (beta / q) / E) with (- (beta / q / E)) by (field; lra). lra.
Qed.
(** the transform is increasing and onto *)
Lemma transform_inv ip r : inverse_polynomial ip -> 0 < r -> exists t, 0 < t /\ inverse_transform t ip = Ok r.
Proof.
  intros Hi Hr. destruct ip; cbn in Hi; try (destruct Hi; fail); cbn [inverse_transform].
  - exists (r * r). split; [apply Rmult_lt_0_compat; exact Hr|]. f_equal. toR. apply sqrt_square. lra.
  - exists (sqrt r). split; [apply sqrt_lt_R0; exact Hr|]. f_equal. toR. apply sqrt_sqrt. lra.
  - pose proof cANGSTROM_pos as Han. exists (r / cANGSTROM * (r / cANGSTROM)).
    assert (0 < r / cANGSTROM) by (apply Rdiv_lt_0_compat; assumption).
    split; [apply Rmult_lt_0_compat; assumption|]. f_equal. toR. rewrite sqrt_square by lra. field. lra.
Qed.
Lemma transform_mono ip t t' r r' : inverse_polynomial ip -> 0 < t -> t <= t' ->
  inverse_transform t ip = Ok r -> inverse_transform t' ip = Ok r' -> r <= r'.
Proof.
  intros Hi Ht Hle H H'. destruct ip; cbn in Hi; try (destruct Hi; fail); cbn [inverse_transform] in H, H';
    apply (f_equal (fun r => match r with Ok l => l | _ => 0 end)) in H; apply (f_equal (fun r => match r with Ok l => l | _ => 0 end)) in H';
    cbv beta iota in H, H'; subst r r'; toR.
  - apply sqrt_le_1_alt. exact Hle.
  - apply Rmult_le_compat; lra.
  - apply Rmult_le_compat_r; [pose proof cANGSTROM_pos; lra|apply sqrt_le_1_alt; exact Hle].
Qed.
Lemma core_length_pos Za Zb ip : repulsive_core ip -> 0 < Za -> 0 < Zb -> 0 < screening_length Za Zb ip.
Proof.
  intros H Ha Hb. destruct ip; cbn in H; try (destruct H; fail); cbn [screening_length]; cbv zeta; apply lindhard_length_pos; assumption.
Qed.

Lemma polynomial_outermost q ip Za Zb Ma Mb E0 p ct V cs roots :
  repulsive_core ip -> 0 < Za -> 0 < Zb -> 0 < Ma -> 0 < Mb -> 0 < E0 ->
  let a := screening_length Za Zb ip in
  let E := E0 * Mb / (Ma + Mb) in
  is_potential a Za Zb ip V ->
  polynomial_coefficients E p ip = Ok cs ->
  cq_real_polynomial_roots q cs ct = Some roots -> lists_exactly roots (fun t => poly_eval cs t = 0) ->
  exists x, polynomial_rootfinder q Za Zb Ma Mb E0 p ip ct = Ok (Some x) /\ outermost_turning_point V E p (x * a).
Proof.
  intros Hcore Ha Hb HMa HMb HE0 a E HV Hcs Hq Hall.
  assert (HE : 0 < E) by (unfold E; apply Rdiv_lt_0_compat; [apply Rmult_lt_0_compat; assumption|lra]).
  destruct (core_wf ip Hcore) as (Hi & Hw).
  pose proof (core_length_pos Za Zb ip Hcore Ha Hb) as Hap. fold a in Hap.
  destruct (coefficients_monic ip E p Hi) as (l & Hl).
  destruct (monic_root cs) as (z & Hz & Ez); [exists l; congruence|apply (core_negative ip E p cs Hcore HE Hcs)|].
  assert (Hin : In z roots) by (apply Hall; exact Ez).
  destruct (max_root_R roots) as (m & Hm & Hmin & Hmax); [intros ->; exact Hin|].
  assert (Hm0 : 0 < m) by (specialize (Hmax z Hin); lra).
  destruct (C43_polynomial_roots_are_turning_points ip Za Zb E p V Hi Hw HE HV) as (cs' & Hcs' & Hturn).
  fold a in Hturn. assert (cs' = cs) by congruence. subst cs'.
  destruct (Hturn m Hm0) as (r & Hr & Hr0 & Htp).
  exists (r / a). split.
  - unfold polynomial_rootfinder. cbv zeta. toR. fold a. fold E. rewrite Hcs. cbn [bind]. rewrite Hq, Hm, Hr. reflexivity.
  - replace (r / a * a) with r by (field; lra). split; [exact Hr0|]. split; [apply Htp, Hall; exact Hmin|].
    intros r' Hlt Ht'. destruct (transform_inv ip r' Hi ltac:(lra)) as (t' & Ht0 & Hr').
    destruct (Hturn t' Ht0) as (r2 & Hr2 & _ & Htp2). assert (r2 = r') by congruence. subst r2.
    apply Htp2 in Ht'. apply Hall in Ht'. specialize (Hmax t' Ht').
    pose proof (transform_mono ip t' m r' r Hi Ht0 Hmax Hr' Hr). lra.
Qed.

(** ** Chebyshev proxy root finder *)
Lemma cpr_largest q ip Za Zb Ma Mb E0 p n0 nmax ep ct tt fz il (df : bool) V roots :
  ~ is_coulomb ip -> ~ is_four_eight ip -> well_formed_potential ip -> 0 < screening_length Za Zb ip ->
  0 < Za -> 0 < Zb -> 0 < Ma -> 0 < Mb -> 0 < E0 ->
  let a := screening_length Za Zb ip in
  let E := E0 * Mb / (Ma + Mb) in
  let f := fun r => distance_of_closest_approach_function r a Za Zb E p ip in
  let g := fun r => let! v := distance_of_closest_approach_function_singularity_free r a Za Zb E p ip in
                    let! s := scaling_function r p ip in Ok (v * s) in
  let d := fun r => diff_distance_of_closest_approach_function r a Za Zb E p ip in
  let lo := 1 / 1000000000000000 in
  let hi := p + crossing_point_doca ip in
  is_potential a Za Zb ip V ->
  cq_find_roots q g f (if df then None else Some d) lo hi n0 ep nmax ct tt il fz = Ok (Some roots) ->
  lists_exactly roots (fun r => lo <= r <= hi /\ f r = Ok 0) ->
  (exists r, lo <= r <= hi /\ turning_point V E p r) ->
  exists x, cpr_rootfinder q Za Zb Ma Mb E0 p ip n0 nmax ep ct tt fz il df = Ok (Some x) /\
    lo <= x * a <= hi /\ turning_point V E p (x * a) /\
    forall r, lo <= r <= hi -> turning_point V E p r -> r <= x * a.
Proof.
  intros Hnc Hnf Hw Hap Ha Hb HMa HMb HE0 a E f g d lo hi HV Hq Hall (r1 & Hr1 & Ht1). fold a in Hap.
  assert (HE : 0 < E) by (unfold E; apply Rdiv_lt_0_compat; [apply Rmult_lt_0_compat; assumption|lra]).
  assert (Hlo : 0 < lo) by (unfold lo; lra).
  assert (Hiff : forall r, 0 < r -> (f r = Ok 0 <-> turning_point V E p r)).
  { intros r Hr. destruct (C42_roots_are_turning_points_partial ip Za Zb E p V Hnc Hnf Hw Ha Hb HE HV r Hr) as (v & v' & H1 & _ & H2 & _).
    unfold f, a. rewrite H1. rewrite <- H2. split; [intros H; congruence|intros ->; reflexivity]. }
  assert (Hin : In r1 roots) by (apply Hall; split; [exact Hr1|apply Hiff; [lra|exact Ht1]]).
  destruct (max_root_R roots) as (m & Hm & Hmin & Hmax); [intros ->; exact Hin|].
  apply Hall in Hmin. destruct Hmin as (Hmr & Hmf).
  exists (m / a). replace (m / a * a) with m by (field; lra). split.
  - unfold cpr_rootfinder. cbv zeta. toR. rewrite nlit_neg. change (10 ^ 15)%Z with 1000000000000000%Z. fold a. fold E.
    unfold lo, hi, f, g, d in Hq. rewrite Hq. cbn [bind]. rewrite Hm. reflexivity.
  - split; [exact Hmr|]. split; [apply Hiff; [lra|exact Hmf]|].
    intros r Hr Ht. apply Hmax. apply Hall. split; [exact Hr|]. apply Hiff; [lra|exact Ht].
Qed.
Lemma tail_beyond ip a Za Zb V E p r : attractive_tail ip -> is_potential a Za Zb ip V -> 0 < E -> 0 <= p ->
  0 < r -> p + crossing_point_doca ip < r -> 0 <= crossing_point_doca ip -> ~ turning_point V E p r.
Proof.
  intros Ht HV HE Hp Hr Hlt Hc H.
  assert (Hs : sign_change_at V (crossing_point_doca ip)) by (apply (C47_crossing_point ip a Za Zb V); [destruct ip; exact Ht|exact HV]).
  destruct Hs as (_ & _ & Hneg). specialize (Hneg r ltac:(lra)). unfold turning_point in H.
  assert (V r / E < 0). { apply Rmult_lt_reg_r with E; [exact HE|]. replace (V r / E * E) with (V r) by (field; lra). lra. }
  assert (p / r <= 1). { apply Rmult_le_reg_r with r; [exact Hr|]. replace (p / r * r) with p by (field; lra). lra. }
  assert (0 <= p / r) by (apply Rdiv_le_0_compat; lra).
  assert (p / r * (p / r) <= 1 * 1) by (apply Rmult_le_compat; lra). lra.
Qed.
