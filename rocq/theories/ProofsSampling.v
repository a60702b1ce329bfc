(** * ProofsSampling.v - what determine_mfp_phi_impact_parameter samples *)
From Coq Require Import ZArith List Bool Lia Reals Lra.
From Verif Require Import Num ModelTypes ModelConsts ModelParticle ModelInteractions ModelGeometry
  ModelMaterial ModelBca Spec ProofsBase ProofsBca NumR SpecR.
Import ListNotations.
Open Scope nat_scope.

Lemma combine_map_seq {A B} (f g : nat -> A) (h : A * A -> B) n w :
  map h (combine (map f (seq n w)) (map g (seq n w))) = map (fun k => h (f k, g k)) (seq n w).
Proof. revert n. induction w as [|w IH]; simpl; intros n; [reflexivity|]. rewrite IH. reflexivity. Qed.
Lemma map_seq_shift {A} (f : nat -> A) n m w : map f (seq (n + m) w) = map (fun k => f (n + k)) (seq m w).
Proof.
  revert m. induction w as [|w IH]; simpl; intros m; [reflexivity|].
  f_equal. rewrite <- IH. f_equal. f_equal. lia.
Qed.

Section Sampling.
  Context {F : Type} {NF : Num F}.

  (** the path length shared by the geometries, without free flight paths:
      [n1] numbers have been drawn for azimuths and impact parameters *)
  Definition sampled_path (options : Options F) (first : bool) (mfp : F) (rng : Rng F) (n1 : nat) : F :=
    let l := if first then mfp *! rng n1 else mfp in
    match o_mean_free_path_model options with
    | GASEOUS => l *! (-! nln (rng (if first then S n1 else n1)))
    | _ => l
    end.

  Lemma determine_value mat options (p : Particle F) rng n mfp :
    o_high_energy_free_flight_paths options = false ->
    mat_mfp mat (vx (p_pos p)) (vy (p_pos p)) (vz (p_pos p)) = Ok mfp ->
    let w := S (o_weak_collision_order options) in
    exists n',
    determine_mfp_phi_impact_parameter mat options p rng n =
    Ok ((if p_first_step p then set_p_first_step false p else p,
         map (fun k => mkBCG (nZ 2 *! npi *! rng (n + k))
                             (mfp /! cSQRTPI *! nsqrt (rng (n + w + k) +! nnat k))
                             (sampled_path options (p_first_step p) mfp rng (n + w + w)))
             (seq 0 w)), n') /\ n + w + w <= n'.
  Proof.
    intros Hh Hm w. unfold determine_mfp_phi_impact_parameter.
    rewrite Hm, Hh. unfold mbind at 1, mlift. cbv iota beta.
    unfold mbind at 1. rewrite mrandoms_run. fold w. cbv beta iota.
    unfold mbind at 1. 
    assert (Hi : exists v, idx (map (fun r => nZ 2 *! npi *! r) (map rng (seq n w))) 0 = Ok v).
    { apply idx_lt. rewrite !map_length, seq_length. unfold w. lia. }
    destruct Hi as (v & ->). cbv beta iota.
    unfold mbind at 1. rewrite mrandoms_run. cbv beta iota.
    assert (Hgeo : forall L,
      map (fun pp => mkBCG (fst pp) (snd pp) L)
        (zip (map (fun r => nZ 2 *! npi *! r) (map rng (seq n w)))
             (map (fun kr => mfp /! cSQRTPI *! nsqrt (snd kr +! nnat (fst kr))) (zip (seq 0 w) (map rng (seq (n + w) w)))))
      = map (fun k => mkBCG (nZ 2 *! npi *! rng (n + k))
                             (mfp /! cSQRTPI *! nsqrt (rng (n + w + k) +! nnat k)) L) (seq 0 w)).
    { intros L. unfold zip.
      assert (H1 : map rng (seq n w) = map (fun k => rng (n + k)) (seq 0 w)).
      { rewrite <- (map_seq_shift rng n 0). f_equal. f_equal. lia. }
      assert (H2 : map rng (seq (n + w) w) = map (fun k => rng (n + w + k)) (seq 0 w)).
      { rewrite <- (map_seq_shift rng (n + w) 0). f_equal. f_equal. lia. }
      rewrite H1, H2. rewrite map_map.
      assert (H3 : forall m0, map (fun kr => mfp /! cSQRTPI *! nsqrt (snd kr +! nnat (fst kr)))
                     (combine (seq m0 w) (map (fun k => rng (n + w + k)) (seq m0 w)))
                   = map (fun k => mfp /! cSQRTPI *! nsqrt (rng (n + w + k) +! nnat k)) (seq m0 w)).
      { clear. generalize (n + w). intros q. generalize w. clear. induction w as [|w' IH]; simpl; intros m0; [reflexivity|].
        rewrite IH. reflexivity. }
      rewrite H3. rewrite (combine_map_seq (fun k => nZ 2 *! npi *! rng (n + k))
        (fun k => mfp /! cSQRTPI *! nsqrt (rng (n + w + k) +! nnat k))). reflexivity. }
    unfold first_step_path, gaseous_factor, sampled_path.
    unfold mbind, mret, mrandom.
    destruct (p_first_step p), (o_mean_free_path_model options); eexists;
      (split; [rewrite Hgeo; reflexivity|unfold w; lia]).
  Qed.
  (** with free flight paths: one geometry, with the first azimuth *)
  Lemma determine_free_flight mat options (p : Particle F) rng n p' bcgs n' :
    o_high_energy_free_flight_paths options = true ->
    determine_mfp_phi_impact_parameter mat options p rng n = Ok ((p', bcgs), n') ->
    exists b l, bcgs = [mkBCG (nZ 2 *! npi *! rng n) b l].
  Proof.
    intros Hh H. unfold determine_mfp_phi_impact_parameter in H. rewrite Hh in H.
    apply mbind_ok in H. destruct H as (mfp & n1 & Hm & H). apply mlift_ok in Hm. destruct Hm as (Hm & ->).
    apply mbind_ok in H. destruct H as (rs & n2 & Hr & H). apply mrandoms_ok in Hr. destruct Hr as (-> & ->).
    apply mbind_ok in H. destruct H as (phi0 & n3 & Hp & H). apply mlift_ok in Hp. destruct Hp as (Hp & ->).
    simpl in Hp. unfold idx in Hp. simpl in Hp. injection Hp; intros; subst phi0.
    do 3 (apply mbind_ok in H; destruct H as (? & ? & ? & H)).
    do 3 (apply mbind_ok in H; destruct H as (? & ? & ? & H)).
    destruct (_ <! mfp).
    - apply mbind_ok in H; destruct H as (? & ? & ? & H).
      apply mbind_ok in H; destruct H as (? & ? & ? & H).
      apply mbind_ok in H; destruct H as (? & ? & ? & H).
      apply mret_ok in H. destruct H as (H & _). injection H; intros; subst. eexists _, _. reflexivity.
    - apply mbind_ok in H; destruct H as (? & ? & ? & H).
      apply mbind_ok in H; destruct H as (? & ? & ? & H).
      apply mbind_ok in H; destruct H as (? & ? & ? & H).
      apply mret_ok in H. destruct H as (H & _). injection H; intros; subst. eexists _, _. reflexivity.
  Qed.
End Sampling.

(** ** exact arithmetic *)
Open Scope R_scope.

Lemma sqrt_pi_pos : 0 < sqrt PI.
Proof. apply sqrt_lt_R0. exact PI_RGT_0. Qed.
Lemma cSQRTPI_R : (cSQRTPI : R) = sqrt PI.
Proof. unfold cSQRTPI. toR. pose proof sqrt_pi_pos. field. lra. Qed.

Lemma ok_geometries {A B} (a a' : A) (b b' : B) (n n' : nat) : Ok ((a, b), n) = Ok ((a', b'), n') -> b' = b.
Proof. congruence. Qed.
Definition unit_randoms (rng : Rng R) : Prop := forall k, 0 <= rng k < 1.

Lemma annulus mfp k r : 0 < mfp -> 0 <= r < 1 ->
  mfp / sqrt PI * sqrt (INR k) <= mfp / sqrt PI * sqrt (r + INR k) < mfp / sqrt PI * sqrt (INR (S k)).
Proof.
  intros Hm Hr. pose proof sqrt_pi_pos as Hp. pose proof (pos_INR k) as Hk.
  assert (H : 0 < mfp / sqrt PI) by (apply Rdiv_lt_0_compat; assumption).
  rewrite S_INR. split.
  - apply Rmult_le_compat_l; [lra|]. apply sqrt_le_1; lra.
  - apply Rmult_lt_compat_l; [exact H|]. apply sqrt_lt_1; lra.
Qed.

Lemma nth_error_map_seq {A} (f : nat -> A) w k a :
  nth_error (map f (seq 0 w)) k = Some a -> (k < w)%nat /\ a = f k.
Proof.
  intros H. assert (Hk : (k < w)%nat).
  { assert (Hn : (k < length (map f (seq 0 w)))%nat) by (apply nth_error_Some; rewrite H; discriminate).
    rewrite map_length, seq_length in Hn. exact Hn. }
  split; [exact Hk|].
  apply (nth_error_nth _ _ (f 0%nat)) in H. rewrite map_nth in H. rewrite seq_nth in H by exact Hk. auto.
Qed.

Lemma mat_mfp_R mat x y z (ds : list R) :
  g_get_densities (mat_geometry mat) x y z = Ok ds -> 0 < Rsum ds ->
  mat_mfp mat x y z = Ok (Rpower (Rsum ds) (-1 / 3)) /\ 0 < Rpower (Rsum ds) (-1 / 3).
Proof.
  intros Hd Hs. unfold mat_mfp, total_number_density. rewrite Hd. cbn [bind]. rewrite nsum_R. fold (Rsum ds).
  rewrite npowf_pos by exact Hs. toR. split; [reflexivity|]. unfold Rpower. apply exp_pos.
Qed.

Lemma path_cases options first mfp rng n :
  unit_randoms rng ->
  exists r r', 0 <= r < 1 /\ 0 <= r' < 1 /\
  sampled_path options first mfp rng n =
    (if first then mfp * r else mfp) *
    (match o_mean_free_path_model options with GASEOUS => - ln r' | _ => 1 end).
Proof.
  intros Hr. unfold sampled_path.
  exists (rng n), (rng (if first then S n else n)). split; [apply Hr|]. split; [apply Hr|].
  toR. destruct first, (o_mean_free_path_model options); ring.
Qed.

Lemma geometry_sampling mat options (p : Particle R) rng n p' bcgs n' ds :
  unit_randoms rng ->
  g_get_densities (mat_geometry mat) (vx (p_pos p)) (vy (p_pos p)) (vz (p_pos p)) = Ok ds -> 0 < Rsum ds ->
  determine_mfp_phi_impact_parameter mat options p rng n = Ok ((p', bcgs), n') ->
  let mfp := Rpower (Rsum ds) (-1 / 3) in
  let pmax := mfp / sqrt PI in
  Forall (fun b => 0 <= bcg_phi_azimuthal b < 2 * PI) bcgs /\
  (o_high_energy_free_flight_paths options = true -> length bcgs = 1%nat) /\
  (o_high_energy_free_flight_paths options = false ->
     length bcgs = S (o_weak_collision_order options) /\
     (forall k b, nth_error bcgs k = Some b ->
        pmax * sqrt (INR k) <= bcg_impact_parameter b < pmax * sqrt (INR (S k))) /\
     exists r r', 0 <= r < 1 /\ 0 <= r' < 1 /\
       Forall (fun b => bcg_mfp b =
         (if p_first_step p then mfp * r else mfp) *
         (match o_mean_free_path_model options with GASEOUS => - ln r' | _ => 1 end)) bcgs).
Proof.
  intros Hr Hd Hs H mfp pmax. destruct (mat_mfp_R _ _ _ _ _ Hd Hs) as (Hm & Hmpos). fold mfp in Hm, Hmpos.
  assert (Hphi : forall k, 0 <= nZ 2 *! npi *! rng k < 2 * PI).
  { intros k. toR. pose proof PI_RGT_0. specialize (Hr k). split.
    - apply Rmult_le_pos; lra.
    - rewrite <- (Rmult_1_r (2 * PI)) at 2. apply Rmult_lt_compat_l; lra. }
  destruct (o_high_energy_free_flight_paths options) eqn:Hh.
  - destruct (determine_free_flight _ _ _ _ _ _ _ _ Hh H) as (b & l & ->).
    split; [constructor; [apply Hphi|constructor]|]. split; [reflexivity|discriminate].
  - destruct (determine_value mat options p rng n mfp Hh Hm) as (n2 & Hv & _).
    rewrite Hv in H. apply ok_geometries in H. subst bcgs. clear Hv.
    split; [|split; [discriminate|intros _]].
    + apply Forall_forall. intros b Hb. apply in_map_iff in Hb. destruct Hb as (k & <- & _). apply Hphi.
    + split; [rewrite map_length, seq_length; reflexivity|]. split.
      * intros k b Hb. apply nth_error_map_seq in Hb. destruct Hb as (_ & ->). cbn [bcg_impact_parameter].
        rewrite cSQRTPI_R. toR. apply annulus; [exact Hmpos|apply Hr].
      * destruct (path_cases options (p_first_step p) mfp rng
          (n + S (o_weak_collision_order options) + S (o_weak_collision_order options)) Hr) as (r & r' & H1 & H2 & E).
        exists r, r'. split; [exact H1|]. split; [exact H2|].
        apply Forall_forall. intros b Hb. apply in_map_iff in Hb. destruct Hb as (k & <- & _). exact E.
Qed.

(** C24 *)
Lemma threshold_ignored mat options (p : Particle R) rng n p' bcgs n' ds d :
  o_mean_free_path_model options = THRESHOLD d ->
  o_high_energy_free_flight_paths options = false -> p_first_step p = false ->
  g_get_densities (mat_geometry mat) (vx (p_pos p)) (vy (p_pos p)) (vz (p_pos p)) = Ok ds -> 0 < Rsum ds ->
  determine_mfp_phi_impact_parameter mat options p rng n = Ok ((p', bcgs), n') ->
  Forall (fun b => bcg_mfp b = Rpower (Rsum ds) (-1 / 3)) bcgs.
Proof.
  intros Ht Hh Hf Hd Hs H. destruct (mat_mfp_R _ _ _ _ _ Hd Hs) as (Hm & _).
  destruct (determine_value mat options p rng n _ Hh Hm) as (n2 & Hv & _).
  rewrite Hv in H. apply ok_geometries in H. subst bcgs.
  apply Forall_forall. intros b Hb. apply in_map_iff in Hb. destruct Hb as (k & <- & _).
  cbn [bcg_mfp]. unfold sampled_path. rewrite Ht, Hf. reflexivity.
Qed.

Lemma threshold_free_flight mat options (p : Particle R) rng n p' bcgs n' ds d :
  o_mean_free_path_model options = THRESHOLD d ->
  o_high_energy_free_flight_paths options = true -> p_first_step p = false ->
  g_get_densities (mat_geometry mat) (vx (p_pos p)) (vy (p_pos p)) (vz (p_pos p)) = Ok ds -> 0 < Rsum ds ->
  determine_mfp_phi_impact_parameter mat options p rng n = Ok ((p', bcgs), n') ->
  exists b k, bcgs = [b] /\
  (Rpower (Rsum ds) (-1 / 3) <= bcg_mfp b \/
   bcg_mfp b = Rpower (Rsum ds) (-1 / 3) * (if Rlt_dec (Rsum ds) d then - ln (rng k) else 1)).
Proof.
  intros Ht Hh Hf Hd Hs H. destruct (mat_mfp_R _ _ _ _ _ Hd Hs) as (Hmm & _).
  unfold determine_mfp_phi_impact_parameter in H. rewrite Hh in H.
  apply mbind_ok in H. destruct H as (mfp & n1 & Hm & H). apply mlift_ok in Hm. destruct Hm as (Hm & ->).
  rewrite Hmm in Hm. injection Hm; intros <-. clear Hm.
  apply mbind_ok in H. destruct H as (rs & n2 & Hr & H). clear Hr.
  apply mbind_ok in H. destruct H as (phi0 & n3 & Hp & H). clear Hp.
  do 3 (apply mbind_ok in H; destruct H as (? & ? & _ & H)).
  apply mbind_ok in H; destruct H as (nd & ? & Hnd & H). apply mlift_ok in Hnd. destruct Hnd as (Hnd & ->).
  unfold total_number_density in Hnd. rewrite Hd in Hnd. injection Hnd; intros <-. clear Hnd.
  do 2 (apply mbind_ok in H; destruct H as (? & ? & _ & H)).
  rewrite Ht, Hf in H.
  match type of H with context [if (?l <! ?r) then _ else _] => destruct (nlt l r) eqn:Hlt end.
  - apply mbind_ok in H; destruct H as (? & ? & _ & H).
    apply mbind_ok in H; destruct H as (f & ? & Hfp & H).
    unfold first_step_path in Hfp. apply mret_ok in Hfp. destruct Hfp as (-> & ->).
    apply mbind_ok in H; destruct H as (fac & ? & Hfac & H).
    apply mret_ok in H. destruct H as (H & _). injection H; intros -> _.
    rewrite nsum_R in Hfac. fold (Rsum ds) in Hfac.
    destruct (nlt (Rsum ds) d) eqn:Hsd.
    + unfold gaseous_factor in Hfac. apply mbind_ok in Hfac. destruct Hfac as (r & ? & Hr & Hfac).
      apply mrandom_ok in Hr. destruct Hr as (-> & ->). apply mret_ok in Hfac. destruct Hfac as (-> & _).
      eexists _, _. split; [reflexivity|]. right. cbn [bcg_mfp]. apply nlt_true in Hsd.
      destruct (Rlt_dec (Rsum ds) d); [|contradiction]. reflexivity.
    + apply mret_ok in Hfac. destruct Hfac as (-> & _).
      eexists _, 0%nat. split; [reflexivity|]. right. cbn [bcg_mfp]. apply nlt_false in Hsd.
      destruct (Rlt_dec (Rsum ds) d); [lra|]. toR. reflexivity.
  - apply mbind_ok in H; destruct H as (? & ? & _ & H).
    apply mbind_ok in H; destruct H as (f & ? & Hfp & H).
    unfold first_step_path in Hfp. apply mret_ok in Hfp. destruct Hfp as (-> & ->).
    apply mbind_ok in H; destruct H as (f2 & ? & Hf2 & H). apply mret_ok in Hf2. destruct Hf2 as (-> & ->).
    apply mret_ok in H. destruct H as (H & _). injection H; intros -> _.
    eexists _, 0%nat. split; [reflexivity|]. left. cbn [bcg_mfp]. apply nlt_false in Hlt. exact Hlt.
Qed.
